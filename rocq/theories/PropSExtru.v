(** C81: simple extruded solids over convex polygons.  See properties.jsonl; [s] is what the constructor makes of the points
    [pts], given clockwise or counter-clockwise, and the heights [lo] and [hi].  [inf] is the largest double. *)
From Coq Require Import Reals Lra Lia Bool ZArith Psatz.
From stdpp Require Import base list list_numbers option numbers tactics.
From Verif Require Import Real3 BoxModel AABBModel ABBoxModel PlanesModel PlanesProofs PolygonModel PolygonSpec PolygonProofs PolygonProofs2 PolygonProofs3 PolygonProofs4 PropPolygon PropPolygon2 PropPolygon3 SExtruModel SExtruSpec SExtruProofs.
Import stdpp.list.
Local Open Scope R_scope.

(** The stored normals have length one. *)
Lemma unit_edge a b : a ≠ b → zero_or kTolerance ((fst b - fst a) / dist2 a b) → zero_or kTolerance ((snd b - snd a) / dist2 a b) →
  vmag (V3 (- e_a (mk_edge b a)) (- e_b (mk_edge b a)) 0) = 1.
Proof.
  intros H Za Zb. pose proof (dist2_pos a b H) as D. pose proof (dist2_sqr a b) as Sq. destruct a as [ax ay], b as [bx by_]. unfold mk_edge. cbn [e_a e_b fst snd] in *.
  assert (En : R_sqrt.sqrt (- (ay - by_) * - (ay - by_) + (ax - bx) * (ax - bx)) = dist2 (ax, ay) (bx, by_)) by (rewrite dist2_sqrt; cbn; f_equal; ring).
  rewrite En. set (n := dist2 (ax, ay) (bx, by_)) in *.
  replace (- (ay - by_) * (1 / n)) with ((by_ - ay) / n) by (field; lra). replace ((ax - bx) * (1 / n)) with (- ((bx - ax) / n)) by (field; lra).
  rewrite (fix1_id ((by_ - ay) / n)) by done. rewrite fix1_id by (by apply zero_or_neg). unfold vmag, vdot. cbn [vx vy vz].
  replace (- ((by_ - ay) / n) * - ((by_ - ay) / n) + - - ((bx - ax) / n) * - - ((bx - ax) / n) + 0 * 0) with 1; [apply sqrt_1|].
  replace (- ((by_ - ay) / n) * - ((by_ - ay) / n) + - - ((bx - ax) / n) * - - ((bx - ax) / n) + 0 * 0) with ((n * n) * (/ n * / n)); [field; lra|]. rewrite Sq. unfold Rdiv. ring.
Qed.
Section Solids.
Variables (kvs : nat) (inf : R) (pts : list p2) (lo hi : R).
Hypothesis Hn : (Z.of_nat (length pts) < 2 ^ 62)%Z.
(** Construction never throws; the capacity is the area of the shoelace formula times the height. *)
Theorem C81_init : pts ≠ [] → ∃ s, sh_init kvs inf pts lo hi = Some s ∧ sx_capacity s = / 2 * Rabs (shoelace pts) * (hi - lo).
Proof using Hn.
  intros Hp. destruct (C49_init kvs inf pts Hn Hp) as (P & E & _ & A & _). unfold sh_init. rewrite E. cbn [mbind option_bind]. eexists. split; [done|].
  unfold sx_capacity. cbn [sh_poly sh_lo sh_hi]. by rewrite A.
Qed.
Variable s : shell.
Hypothesis Hs : sh_init kvs inf pts lo hi = Some s.
Lemma sh_parts : pg_init kvs inf pts = Some (sh_poly s) ∧ sh_lo s = lo ∧ sh_hi s = hi.
Proof using Hs. unfold sh_init in Hs. destruct (pg_init kvs inf pts); [|done]. apply Some_inj in Hs. by rewrite <- Hs. Qed.
Lemma sh_edges : pg_edges (sh_poly s) = mk_edges (clockwise pts).
Proof using Hs Hn. destruct sh_parts as [E _]. by apply (edges_eq kvs inf). Qed.

Section Convex.
Hypothesis Cv : convex_cw pts ∨ convex_ccw pts.
Hypothesis Td : tidy kTolerance pts.
Hypothesis Hinf : kTolerance < inf.
Lemma sh_convex : pg_convex (sh_poly s) = true.
Proof using Hs Hn Cv.
  destruct sh_parts as [E _]. assert (Hp : pts ≠ []) by (intros Ep; destruct Cv as [[L _]|[L _]]; rewrite Ep in L; cbn in L; lia).
  destruct (C49_init kvs inf pts Hn Hp) as (P & E' & _ & _ & _ & _ & H). rewrite E in E'. injection E' as <-. by apply H.
Qed.
Lemma sh_proper : proper_sides pts.
Proof using Cv. intros a b H. pose proof (convex_clockwise _ Cv) as C. apply sides_clockwise in H as [H|H]; apply (convex_proper _ C) in H; congruence. Qed.
Let C : convex_cw (clockwise pts) := convex_clockwise _ Cv.
Let T : tidy kTolerance (clockwise pts) := tidy_clockwise _ _ Td.
Lemma prism_cw p : prism (clockwise pts) lo hi p ↔ prism pts lo hi p.
Proof. unfold prism. by rewrite hull_clockwise. Qed.
Lemma prism_open_cw p : prism_open (clockwise pts) lo hi p ↔ prism_open pts lo hi p.
Proof using Cv. unfold prism_open. by rewrite inner_clockwise. Qed.
Lemma deep_cw c p : deep c (prism_open (clockwise pts) lo hi) p ↔ deep c (prism_open pts lo hi) p.
Proof using Cv. unfold deep. split; intros H q Hq; apply prism_open_cw; by apply H. Qed.
Lemma rate_swap a b d : rate a b d = - rate b a d.
Proof. unfold rate. rewrite (dist2_comm b a). unfold Rdiv. ring. Qed.
Lemma firm_cw c d a b : (∀ a b, In (a, b) (sides pts) → zero_or c (rate a b d)) → In (a, b) (sides (clockwise pts)) → zero_or c (rate a b d).
Proof. intros H Hab. apply clockwise_sides in Hab as [Hab|Hab]; [by apply H|]. rewrite rate_swap. by apply zero_or_neg, H. Qed.

(** Contains: the points over the interior of the polygon, between the planes or on them. *)
Theorem C81_contains p : sx_contains kvs inf s p = true ↔ inner pts (xy p) ∧ lo <= vz p <= hi.
Proof using All.
  destruct sh_parts as (E & E1 & E2). unfold sx_contains. rewrite sh_convex, E1, E2. destruct (C49_contains_convex kvs inf pts Hn _ E Cv Td Hinf (vx p) (vy p)) as [H _]. unfold xy.
  destruct (rgtb_spec (vz p) hi); cbn [orb]; [split; [done|lra]|]. destruct (rltb_spec (vz p) lo); [split; [done|lra]|]. rewrite H. split; [intros; split; [done|lra]|tauto].
Qed.
(** Inside: kInside exactly for points with everything within the tolerance inside (heights outside by exactly the tolerance
    apart, see [C81_inside_refuted]); kOutside only farther from the solid than the tolerance; kSurface on its surface. *)
Theorem C81_inside p : ∃ c, sx_inside kvs inf s p = Some c ∧
  (vz p ≠ hi + kTolerance → vz p ≠ lo - kTolerance →
     c = kInside ↔ (∀ q, dist2 (xy p) q <= kTolerance → inner pts q) ∧ lo + kTolerance <= vz p <= hi - kTolerance) ∧
  (c = kOutside → ∀ q, prism pts lo hi q → kTolerance < vdist p q) ∧
  (prism pts lo hi p → ¬ prism_open pts lo hi p → c = kSurface).
Proof using All.
  destruct sh_parts as (E & E1 & E2). pose proof kTolerance_pos as K. destruct (C49_inside_convex kvs inf pts Hn _ E Cv Td Hinf (vx p) (vy p)) as (I1 & I2 & _ & _ & I5).
  unfold sx_inside. rewrite sh_convex, E1, E2. set (i := inside_convex inf (sh_poly s) (vx p) (vy p)) in *.
  assert (Ih : hull pts (xy p) → i ≠ kOutside). { intros Hh Hi. specialize (I2 Hi _ Hh). unfold xy in I2. rewrite (dist2_is (vx p, vy p) (vx p, vy p) 0) in I2; [lra|lra|ring]. }
  destruct (rgtb_spec (vz p) (hi + kTolerance)) as [H|H]; [|destruct (rltb_spec (vz p) (lo - kTolerance)) as [H'|H']].
  - eexists. split; [done|]. split; [intros; split; [done|lra]|]. split; [|unfold prism; lra]. intros _ q [_ Hq]. pose proof (vdist_z p q) as Z. apply Rlt_le_trans with (2 := Z). rewrite Rabs_pos_eq; lra.
  - eexists. split; [done|]. split; [intros; split; [done|lra]|]. split; [|unfold prism; lra]. intros _ q [_ Hq]. pose proof (vdist_z p q) as Z. apply Rlt_le_trans with (2 := Z). rewrite Rabs_left1; lra.
  - assert (On : rltb (Rabs (vz p - hi)) kTolerance || rltb (Rabs (vz p - lo)) kTolerance = true ↔ hi - kTolerance < vz p < hi + kTolerance ∨ lo - kTolerance < vz p < lo + kTolerance).
    { rewrite orb_true_iff, !rltb_true. split; (intros [Hx|Hx]; [left|right]); [apply Rabs_def2 in Hx; lra..|apply Rabs_def1; lra|apply Rabs_def1; lra]. }
    destruct (rltb (Rabs (vz p - hi)) kTolerance || rltb (Rabs (vz p - lo)) kTolerance).
    + apply proj1 in On. specialize (On eq_refl). eexists. split; [done|]. split; [|split].
      * intros _ _. split; [by destruct i|]. lra.
      * intros Hc q [Hq _]. destruct i eqn:Ei; try done. specialize (I2 eq_refl _ Hq). pose proof (vdist_xy p q) as D. unfold xy in *. lra.
      * intros [Hh _] _. specialize (Ih Hh). by destruct i.
    + assert (On' : ¬ (hi - kTolerance < vz p < hi + kTolerance ∨ lo - kTolerance < vz p < lo + kTolerance)) by (intros Hx; apply On in Hx; done). clear On.
      eexists. split; [done|]. split; [|split].
      * intros N1 N2. rewrite I1. unfold xy. split; [intros Hx; split; [done|]|tauto]. lra.
      * intros Hc q [Hq _]. specialize (I2 Hc _ Hq). pose proof (vdist_xy p q) as D. unfold xy in *. lra.
      * intros [Hh Hz] Ho. apply I5. assert (lo + kTolerance <= vz p <= hi - kTolerance) by lra. apply hull_clockwise in Hh. apply (border_clockwise pts). apply border_iff; [done|]. split; [done|].
        assert (D : (∃ a b, In (a, b) (sides (clockwise pts)) ∧ 0 <= cross2 a b (xy p)) ∨ ∀ a b, In (a, b) (sides (clockwise pts)) → cross2 a b (xy p) < 0).
        { clear. induction (sides (clockwise pts)) as [|[a b] l IH]; [by right|]. destruct (Rle_dec 0 (cross2 a b (xy p))); [left; exists a, b; split; [by left|done]|].
          destruct IH as [(x & y & Hx & Hy)|IH]; [left; exists x, y; split; [by right|done]|]. right. intros x y [Ex|Hx]; [injection Ex as <- <-; lra|by apply IH]. }
        destruct D as [(a & b & Hab & Hx)|D].
        -- exists a, b. split; [done|]. pose proof (proj1 (hull_iff _ _ C) Hh a b Hab). unfold xy in *. lra.
        -- exfalso. apply Ho. split; [|lra]. apply inner_clockwise. apply inner_iff; done.
Qed.
(** Above or below by more than a tolerance is outside. *)
Theorem C81_inside_beyond p : hi + kTolerance < vz p ∨ vz p < lo - kTolerance → sx_inside kvs inf s p = Some kOutside.
Proof using All.
  destruct sh_parts as (E & E1 & E2). intros H. unfold sx_inside. rewrite E1, E2. destruct (rgtb_spec (vz p) (hi + kTolerance)); [done|].
  destruct (rltb_spec (vz p) (lo - kTolerance)); [done|lra].
Qed.
(** Safeties: at most the distance to the solid from anywhere, positive outside; at most the distance to everything that is
    not in the interior from inside. *)
Theorem C81_safety_to_in p : ∃ d, sx_safety_to_in kvs inf s p = Some d ∧ (∀ q, prism pts lo hi q → d <= vdist p q) ∧ (¬ prism pts lo hi p → 0 < d).
Proof using All.
  destruct sh_parts as (E & E1 & E2). unfold sx_safety_to_in. rewrite sh_convex, E1, E2. eexists. split; [done|].
  destruct (C49_safety_convex kvs inf pts Hn _ E Cv Td Hinf (vx p) (vy p)) as [S1 S2].
  assert (Sc : safety_convex inf (sh_poly s) false (vx p) (vy p) = safety_convex inf (sh_poly s) true (vx p) (vy p) * -1) by (unfold safety_convex; ring).
  assert (Dec : hull pts (xy p) ∨ ¬ hull pts (xy p)).
  { rewrite <- hull_clockwise, (hull_iff _ _ C). clear. induction (sides (clockwise pts)) as [|[a b] l IH]; [left; done|]. destruct (Rle_dec (cross2 a b (xy p)) 0) as [Hx|Hx]; [|right; intros H; apply Hx, H; by left].
    destruct IH as [IH|IH]; [left; intros x y [Ex|Hy]; [by injection Ex as <- <-|by apply IH]|right; intros H; apply IH; intros; apply H; by right]. }
  split.
  - intros q [Hq Hz]. pose proof (vdist_z p q) as Z. apply abs_le_inv in Z. apply Rmax_lub; [apply Rmax_lub; lra|]. destruct Dec as [Hh|Hh].
    + destruct (S1 Hh) as [S3 _]. pose proof (vdist_nonneg p q). lra.
    + destruct (S2 Hh) as [_ S3]. specialize (S3 _ Hq). pose proof (vdist_xy p q). unfold xy in *. lra.
  - intros Hp. destruct Dec as [Hh|Hh].
    + eapply Rlt_le_trans; [|apply Rmax_l]. destruct (Rlt_dec (vz p) lo); [eapply Rlt_le_trans; [|apply Rmax_l]; lra|]. eapply Rlt_le_trans; [|apply Rmax_r]. apply Rnot_le_lt. intros Hx. apply Hp. split; [done|lra].
    + destruct (S2 Hh) as [S3 _]. eapply Rlt_le_trans; [|apply Rmax_r]. done.
Qed.
Theorem C81_safety_to_out p : prism pts lo hi p → ∃ d, sx_safety_to_out kvs inf s p = Some d ∧ 0 <= d ∧ ∀ q, ¬ prism_open pts lo hi q → d <= vdist p q.
Proof using All.
  intros [Hh Hz]. destruct sh_parts as (E & E1 & E2). unfold sx_safety_to_out. rewrite sh_convex, E1, E2. eexists. split; [done|].
  destruct (C49_safety_convex kvs inf pts Hn _ E Cv Td Hinf (vx p) (vy p)) as [S1 _]. destruct (S1 Hh) as [S3 _]. split; [apply Rmin_glb; [apply Rmin_glb; lra|done]|].
  intros q Hq. apply Rnot_lt_le. intros Hd. apply Hq. clear Hq. apply Rmin_Rgt_l in Hd as [Hd Hd3]. apply Rmin_Rgt_l in Hd as [Hd1 Hd2].
  pose proof (vdist_z p q) as Z. apply abs_le_inv in Z. split; [|lra]. apply inner_clockwise. apply inner_iff; [done|]. intros a b Hab.
  pose proof (convex_proper _ C a b Hab) as Hne. assert (Q : cross2 a b (xy q) / dist2 a b < 0); [|apply cross_sign in Q; [lra|done]].
  pose proof (cross2_rate a b (xy q) (xy p) Hne) as Hr. rewrite (dist2_comm (xy q)) in Hr. pose proof (vdist_xy p q) as Hxy.
  destruct (max_seg_spec inf _ C T _ sh_edges (vx p) (vy p)) as (_ & M & _). specialize (M a b Hab). unfold safety_convex in Hd3. unfold xy in *. lra.
Qed.
(** DistanceToOut, for solids with the middle at height zero and directions that go along a face exactly or not at all: from
    inside the ray stays in the solid up to the answer and leaves it there; only for rays at a constant height the answer
    can also be 10^30 times the distance to the top.  See [C81_off_centre_refuted] for other solids. *)
Theorem C81_to_out p d : lo + hi = 0 → firm kAbsorb pts d → prism pts lo hi p → ∃ D, sx_to_out inf s p d = Some D ∧
  0 <= D ∧ (∀ u, 0 <= u <= D → prism pts lo hi (along p d u)) ∧
  ((∀ u, D < u → ¬ prism pts lo hi (along p d u)) ∨ vz d = 0 ∧ D = (hi - vz p) / kTiny).
Proof using Hs Hn Cv Td.
  intros Hlh [Fz Fs] Hp. destruct sh_parts as (E & E1 & E2). unfold sx_to_out. rewrite sh_convex. eexists. split; [done|].
  destruct (to_out_inside _ C T s sh_edges p d) as (H1 & H2 & H3); [by rewrite E1, E2|split; [done|]; intros a b Hab; by apply firm_cw|rewrite E1, E2; by apply prism_cw|].
  rewrite E1, E2 in *. split; [done|]. split; [intros u Hu; by apply prism_cw, H2|]. destruct H3 as [H3|H3]; [left; intros u Hu Hx; apply (H3 u Hu); by apply prism_cw|by right].
Qed.
(** From points that Inside calls kOutside the answer is minus the tolerance. *)
Theorem C81_to_out_outside p d : sx_inside kvs inf s p = Some kOutside → sx_to_out inf s p d = Some (- kTolerance).
Proof using All.
  destruct sh_parts as (E & E1 & E2). pose proof kTolerance_pos as K. unfold sx_inside, sx_to_out. rewrite sh_convex, to_out_convex_eq, E1, E2. cbv zeta. intros H. f_equal.
  destruct (rgtb_spec (Rabs (vz p - / 2 * (lo + hi)) - / 2 * (hi - lo)) kTolerance) as [|Hz]; [done|].
  assert (Hz' : Rabs (vz p - / 2 * (lo + hi)) <= / 2 * (hi - lo) + kTolerance) by lra. apply abs_le_inv in Hz'.
  destruct (rgtb_spec (vz p) (hi + kTolerance)); [lra|]. destruct (rltb_spec (vz p) (lo - kTolerance)); [lra|]. apply Some_inj in H.
  assert (Hi : inside_convex inf (sh_poly s) (vx p) (vy p) = kOutside) by (by destruct (rltb _ _ || rltb _ _), (inside_convex inf (sh_poly s) (vx p) (vy p))).
  unfold inside_convex in Hi. cbv zeta in Hi. destruct (rgtb_spec (max_seg inf (sh_poly s) (vx p) (vy p)) kTolerance) as [Hm|_]; [|destruct (rltb (max_seg inf (sh_poly s) (vx p) (vy p)) (- kTolerance)) in Hi; discriminate Hi].
  destruct (max_seg_spec inf _ C T _ sh_edges (vx p) (vy p)) as (_ & _ & [M|(a & b & Hab & M)]); [lra|].
  apply (out_loop_wrong p d _ _ (mk_edge b a)); [rewrite sh_edges; apply mk_edges_in; eauto|]. rewrite (edge_dseg _ C T) by done. lra.
Qed.
(** DistanceToIn, for directions that go along a side exactly or approach or leave it by at least the tolerance: a finite
    answer is the entry; a negative one is for points inside.  Infinity is answered when the ray does not come deeper into
    the solid than the tolerance, on the next 10^20.  See [C81_grazing_refuted] for other directions. *)
Theorem C81_to_in p d : lo <= hi → zero_or kAbsorb (vz d) → (∀ a b, In (a, b) (sides pts) → zero_or kTolerance (rate a b d)) →
  ∃ D, sx_to_in kvs inf s p d = Some D ∧
  (D ≠ inf → prism pts lo hi (along p d (Rmax 0 D)) ∧ (∀ u, 0 <= u < D → ¬ prism pts lo hi (along p d u)) ∧ (¬ prism pts lo hi p → 0 < D)) ∧
  (D = inf → vmag d <= 1 → ∀ u, 0 <= u <= 10 ^ 20 → u < inf → ¬ deep kTolerance (prism_open pts lo hi) (along p d u)).
Proof using Hs Hn Cv Td.
  intros Hlh Fz Fs. destruct sh_parts as (E & E1 & E2). unfold sx_to_in. rewrite sh_convex. eexists. split; [done|].
  assert (B : brisk (clockwise pts) d).
  { split; [done|]. intros a b Hab. destruct (firm_cw _ _ _ _ Fs Hab) as [H|H]; [by left|]. right. pose proof kTolerance_pos. assert (kAbsorb <= kTolerance) by (unfold kAbsorb, kTolerance; lra).
    destruct (Rle_dec 0 (rate a b d)); [rewrite Rabs_pos_eq in H by done; left; lra|rewrite Rabs_left in H by lra; right; lra]. }
  destruct (to_in_spec inf _ C T s sh_edges p d) as [H1 H2]; [by rewrite E1, E2|done|]. rewrite E1, E2 in *. split.
  - intros Hne. destruct (H1 Hne) as (A1 & A2 & A3). split; [by apply prism_cw|]. split; [intros u Hu Hx; apply (A2 u Hu); by apply prism_cw|]. intros Hx. apply A3. by rewrite prism_cw.
  - intros Hne Hd u Hu Hui Hx. apply (H2 Hne Hd u Hu Hui). by apply deep_cw.
Qed.
(** Normal: a valid answer has length one, and no point of the solid is ahead of it by the tolerance. *)
Theorem C81_normal p n : (0 < kvs)%nat → level_or kAbsorb pts → (∃ q, border pts q ∧ dist2 (xy p) q < 10 ^ 15) → lo <= hi →
  sx_normal kvs s p = Some (n, true) → vmag n = 1 ∧ ∀ q, prism pts lo hi q → vdot n (vsub q p) < kTolerance.
Proof using All.
  intros Hk Hl Hb Hlh. destruct sh_parts as (E & E1 & E2). unfold sx_normal. rewrite E1, E2. pose proof kTolerance_pos as K.
  destruct ((rltb (Rabs (vz p - hi)) kTolerance || rltb (Rabs (vz p - lo)) kTolerance) && contains_lanes (sh_poly s) kvs (vx p) (vy p)) eqn:Ez.
  - intros H. apply Some_inj in H. apply andb_true_iff in Ez as [Ez _]. injection H as <-. destruct (rltb_spec (Rabs (vz p - hi)) kTolerance) as [H1|H1].
    + split; [unfold vmag, vdot; cbn [vx vy vz]; replace (0 * 0 + 0 * 0 + 1 * 1) with 1 by ring; apply sqrt_1|]. intros q [_ Hq]. apply Rabs_def2 in H1. unfold vdot, vsub. cbn [vx vy vz]. lra.
    + cbn [orb] in Ez. apply rltb_true in Ez. split; [unfold vmag, vdot; cbn [vx vy vz]; replace (0 * 0 + 0 * 0 + -1 * -1) with 1 by ring; apply sqrt_1|]. intros q [_ Hq]. apply Rabs_def2 in Ez. unfold vdot, vsub. cbn [vx vy vz]. lra.
  - destruct (rleb lo (vz p) && rleb (vz p) hi); [|intros H; apply Some_inj in H; by injection H].
    destruct (C49_safety_sqr kvs inf pts Hn _ E (vx p) (vy p) Hk) as (r & j & e & Eq & Ee & Hse & Hr & _); [apply sh_proper|done|].
    rewrite Eq. cbn [mbind option_bind fst snd]. rewrite Nat2Z.id, Ee. cbn [mbind option_bind]. rewrite bool_decide_eq_false_2 by lia. intros H. apply Some_inj in H.
    assert (Hin : In e (pg_edges (sh_poly s))) by (apply elem_of_list_In; by eapply elem_of_list_lookup_2). destruct (edge_of _ s sh_edges e Hin) as (a & b & Hab & ->).
    assert (Hr0 : r < kTolerance * kTolerance) by (apply (f_equal snd) in H; cbn in H; by apply rltb_true in H). apply (f_equal fst) in H. cbn [fst] in H. rewrite <- H. clear H.
    destruct Hr as [(x & Hx1 & Hx2 & _)|[_ (q0 & Hq0 & Hd)]]; [exfalso; nra|]. pose proof (convex_proper _ C a b Hab) as Hne.
    split.
    + apply unit_edge; [done|..]. all: destruct (T a b Hab) as (T1 & T2 & T3); done.
    + intros q Hq. apply prism_cw in Hq. rewrite <- E1, <- E2 in Hq. apply (prism_iff _ C T s sh_edges) in Hq as [Hq _]. specialize (Hq _ Hin).
      assert (Ev : vdot (V3 (- e_a (mk_edge b a)) (- e_b (mk_edge b a)) 0) (vsub q p) = dseg (mk_edge b a) (vx q) (vy q) - dseg (mk_edge b a) (vx p) (vy p)) by (unfold vdot, vsub, dseg; cbn [vx vy vz]; ring).
      rewrite Ev. assert (dseg (mk_edge b a) (vx p) (vy p) > - kTolerance); [|lra]. rewrite (edge_dseg _ C T) by done.
      pose proof (cross2_rate a b q0 (vx p, vy p) Hne) as Hr. rewrite (dist2_comm q0) in Hr. destruct Hq0 as (t & Ht & Et).
      assert (cross2 a b q0 = 0). { rewrite Et. destruct a, b. unfold cross2, way, mk_edge. cbn. ring. }
      rewrite H in Hr. unfold Rdiv in Hr at 1. rewrite Rmult_0_l in Hr. lra.
Qed.
End Convex.
End Solids.
Print Assumptions C81_init.
Print Assumptions C81_contains.
Print Assumptions C81_inside.
Print Assumptions C81_inside_beyond.
Print Assumptions C81_safety_to_in.
Print Assumptions C81_safety_to_out.
Print Assumptions C81_to_out.
Print Assumptions C81_to_out_outside.
Print Assumptions C81_to_in.
Print Assumptions C81_normal.
