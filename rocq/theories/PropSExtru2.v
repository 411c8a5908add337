(** C81, continued: simple extruded solids over any polygon that is not found to be convex. *)
From Coq Require Import Reals Lra Lia Bool ZArith Psatz.
From stdpp Require Import base list list_numbers option numbers tactics.
From Verif Require Import Real3 BoxModel AABBModel AABBSpec ABBoxModel ABBoxProofs PlanesModel PlanesProofs PolygonModel PolygonSpec PolygonProofs PolygonProofs2 PolygonProofs3 PolygonProofs4 PropPolygon PropPolygon2 PropPolygon3 SExtruModel SExtruSpec SExtruProofs PropSExtru.
Import stdpp.list.
Local Open Scope R_scope.

Section Solids.
Variables (kvs : nat) (inf : R) (pts : list p2) (lo hi : R).
Hypothesis Hn : (Z.of_nat (length pts) < 2 ^ 62)%Z.
Variable s : shell.
Hypothesis Hs : sh_init kvs inf pts lo hi = Some s.
(** The extent holds the solid, and reaches every corner. *)
Theorem C81_extent : (∀ v, In v pts → Rabs (fst v) < inf ∧ Rabs (snd v) < inf) →
  (∀ p, prism pts lo hi p → in_box (sx_extent s) p) ∧ (level_or kAbsorb pts → ∀ p, column pts lo hi p → in_box (sx_extent s) p) ∧
  (∃ v, In v pts ∧ fst v = vx (bmin (sx_extent s))) ∧ (∃ v, In v pts ∧ fst v = vx (bmax (sx_extent s))) ∧
  (∃ v, In v pts ∧ snd v = vy (bmin (sx_extent s))) ∧ (∃ v, In v pts ∧ snd v = vy (bmax (sx_extent s))) ∧
  vz (bmin (sx_extent s)) = lo ∧ vz (bmax (sx_extent s)) = hi.
Proof using Hs Hn.
  intros Hb. destruct (sh_parts _ _ _ _ _ _ Hs) as (E & E1 & E2). destruct (C49_extent kvs inf pts Hn _ E Hb) as (X & X1 & X2 & X3 & X4).
  unfold sx_extent. cbn [bmin bmax vx vy vz]. rewrite E1, E2. split; [|split; [|done]].
  - intros p [Hh Hz]. assert (G : pg_minx (sh_poly s) <= fst (xy p) <= pg_maxx (sh_poly s) ∧ pg_miny (sh_poly s) <= snd (xy p) <= pg_maxy (sh_poly s)).
    { clear Hz. induction Hh as [q Hq|q r t Hq IHq Hr IHr Ht]; [by apply X|]. unfold way. cbn [fst snd]. destruct IHq as [[A1 A2] [A3 A4]], IHr as [[B1 B2] [B3 B4]], Ht as [T1 T2]. repeat split; nra. }
    unfold in_box, xy in *. cbn [bmin bmax vx vy vz fst snd] in *. lra.
  - intros Hl p [Ho Hz]. assert (H : contains (sh_poly s) (vx p) (vy p) = true) by (by apply (C49_contains kvs inf pts Hn _ E)).
    destruct (C49_contains_extent kvs inf pts _ Hn E Hl _ _ Hb H). unfold in_box. cbn [bmin bmax vx vy vz]. lra.
Qed.

Hypothesis Hc : pg_convex (sh_poly s) = false.
Hypothesis Hl : level_or kAbsorb pts.
Hypothesis Hk : (0 < kvs)%nat.
Lemma lanes_odd p : contains_lanes (sh_poly s) kvs (vx p) (vy p) = true ↔ odd_inside pts (xy p).
Proof using Hs Hn Hl Hk. destruct (sh_parts _ _ _ _ _ _ Hs) as (E & _). rewrite contains_lanes_same by done. by apply (C49_contains kvs inf pts Hn _ E). Qed.
(** Contains: the points over the polygon by crossing parity, between the planes or on them. *)
Theorem C81_contains_any p : sx_contains kvs inf s p = true ↔ column pts lo hi p.
Proof using All.
  destruct (sh_parts _ _ _ _ _ _ Hs) as (E & E1 & E2). unfold sx_contains, column. rewrite Hc, E1, E2. rewrite <- lanes_odd.
  destruct (rgtb_spec (vz p) hi); cbn [orb]; [split; [done|lra]|]. destruct (rltb_spec (vz p) lo); [split; [done|lra]|]. split; [intros; split; [done|lra]|tauto].
Qed.
Section Near.
Hypothesis Hp : proper_sides pts.
Variable p : v3.
Hypothesis Near : ∃ q, border pts q ∧ dist2 (xy p) q < 10 ^ 15.
Lemma safety_any : ∃ r j, safety_sqr (sh_poly s) kvs (vx p) (vy p) = Some (r, j) ∧ 0 <= r ∧ (∀ q, border pts q → r <= dist2 (xy p) q * dist2 (xy p) q) ∧
  (r < kTolerance * kTolerance ↔ r = 0) ∧ (∀ q, border pts q → dist2 (xy p) q < kTolerance → r = 0) ∧
  ∀ q, dist2 (xy p) q * dist2 (xy p) q < r → odd_inside pts (xy p) ↔ odd_inside pts q.
Proof using All.
  destruct (sh_parts _ _ _ _ _ _ Hs) as (E & _). pose proof kTolerance_pos as K.
  destruct (C49_safety_sqr kvs inf pts Hn _ E (vx p) (vy p) Hk Hp Near) as (r & j & e & Eq & _ & _ & Hr & _). exists r, (Z.of_nat j). split; [done|].
  destruct Hr as [(d & Hd & -> & [D1 D2] & _)|[-> _]].
  - assert (0 < d * d) by nra. split; [lra|]. split; [intros q Hq; specialize (D1 q Hq); unfold xy; nra|]. split; [split; [intros; nra|lra]|]. split; [intros q Hq Hx; specialize (D1 q Hq); unfold xy in Hx; lra|].
    intros q Hq. unfold xy in *. apply (odd_near pts _ _ d); [done|]. apply Rnot_le_lt. intros Hx. nra.
  - split; [lra|]. split; [intros q _; apply Rle_0_sqr|]. split; [split; [done|nra]|]. split; [done|]. intros q Hq. pose proof (Rle_0_sqr (dist2 (xy p) q)) as S. unfold Rsqr in S. lra.
Qed.
Lemma near_any q r : 0 <= r → vdist p q < R_sqrt.sqrt r → dist2 (xy p) (xy q) * dist2 (xy p) (xy q) < r.
Proof.
  intros Hr H. pose proof (vdist_xy p q) as D. pose proof (dist2_nonneg (xy p) (xy q)). pose proof (R_sqrt.sqrt_sqrt r Hr) as S. pose proof (R_sqrt.sqrt_pos r).
  assert (dist2 (xy p) (xy q) < R_sqrt.sqrt r) by lra. nra.
Qed.
(** Inside: kInside means that everything closer than the tolerance is inside; kOutside that the point is outside, and, for
    heights of the solid, that everything closer than the tolerance is outside; the surface is kSurface. *)
Theorem C81_inside_any : ∃ c, sx_inside kvs inf s p = Some c ∧
  (c = kInside → column pts lo hi p ∧ ∀ q, vdist p q < kTolerance → column pts lo hi q) ∧
  (c = kOutside → ¬ column pts lo hi p ∧ (lo <= vz p <= hi → ∀ q, vdist p q < kTolerance → ¬ column pts lo hi q)) ∧
  (side_face pts lo hi p → c = kSurface) ∧ (odd_inside pts (xy p) → lo <= hi → vz p = lo ∨ vz p = hi → c = kSurface).
Proof using All.
  destruct (sh_parts _ _ _ _ _ _ Hs) as (E & E1 & E2). pose proof kTolerance_pos as K. pose proof (C81_contains_any p) as Cn. pose proof (lanes_odd p) as Lo.
  unfold sx_inside. rewrite Hc, E1, E2. unfold side_face, column in *.
  destruct (rgtb_spec (vz p) (hi + kTolerance)) as [H|H]; [|destruct (rltb_spec (vz p) (lo - kTolerance)) as [H'|H']]; [eexists; (split; [done|]); (split; [done|]); (split; [intros _; split; lra|]); split; lra..|].
  assert (On : rltb (Rabs (vz p - hi)) kTolerance || rltb (Rabs (vz p - lo)) kTolerance = true ↔ hi - kTolerance < vz p < hi + kTolerance ∨ lo - kTolerance < vz p < lo + kTolerance).
  { rewrite orb_true_iff, !rltb_true. split; (intros [Hx|Hx]; [left|right]); [apply Rabs_def2 in Hx; lra..|apply Rabs_def1; lra|apply Rabs_def1; lra]. }
  set (onz := _ || _) in *. set (cl := contains_lanes _ _ _ _) in *. destruct (onz && cl) eqn:Ea.
  { eexists. split; [done|]. done. }
  apply andb_false_iff in Ea.
  assert (Top : odd_inside pts (xy p) → lo <= hi → vz p = lo ∨ vz p = hi → False).
  { intros Ho Hlh Hz. apply Lo in Ho. destruct Ea as [Ea|Ea]; [|congruence]. assert (onz = true); [|congruence]. apply On. lra. }
  destruct (rleb_spec lo (vz p)) as [Z1|Z1]; [destruct (rleb_spec (vz p) hi) as [Z2|Z2]|]; cbn [andb mbind option_bind].
  - destruct safety_any as (r & j & Eq & R0 & Rb & Rt & Rn & Rs). rewrite Eq. cbn [mbind option_bind fst]. destruct (rltb_spec r (kTolerance * kTolerance)) as [Hr|Hr]; [eexists; split; [done|]; done|].
    assert (Hrt : ∀ q, vdist p q < kTolerance → odd_inside pts (xy p) ↔ odd_inside pts (xy q)).
    { intros q Hq. apply Rs. pose proof (vdist_xy p q). pose proof (dist2_nonneg (xy p) (xy q)). nra. }
    assert (Nb : ∀ q, border pts q → ¬ dist2 (xy p) q < kTolerance) by (intros q Hq Hx; specialize (Rn q Hq Hx); nra).
    assert (Sf : border pts (xy p) → False). { intros Hb. apply (Nb _ Hb). rewrite (dist2_is (xy p) (xy p) 0); [lra|lra|ring]. }
    eexists. split; [done|]. split; [|split; [|split; [tauto|intros Ho Hlh Hz; exfalso; by apply Top]]].
    + destruct (sx_contains kvs inf s p); [|done]. intros _. destruct (proj1 Cn eq_refl) as [Ho Hz]. split; [done|]. intros q Hq. split; [by apply (Hrt q Hq)|].
      apply Lo in Ho. destruct Ea as [Ea|Ea]; [|congruence]. assert (¬ (hi - kTolerance < vz p < hi + kTolerance ∨ lo - kTolerance < vz p < lo + kTolerance)) by (intros Hx; apply On in Hx; congruence).
      pose proof (vdist_z p q) as Z. apply abs_le_inv in Z. lra.
    + destruct (sx_contains kvs inf s p); [done|]. intros _. split; [intros Hx; apply Cn in Hx; done|]. intros Hz q Hq [Ho _]. apply (Hrt q Hq) in Ho. assert (false = true); [|done]. apply Cn. done.
  - eexists. split; [done|]. destruct (sx_contains kvs inf s p); [exfalso; assert (lo <= vz p <= hi) by (by apply Cn); lra|]. split; [done|]. split; [intros _; split; lra|]. split; [lra|]. intros Ho Hlh Hz. exfalso. by apply Top.
  - eexists. split; [done|]. destruct (sx_contains kvs inf s p); [exfalso; assert (lo <= vz p <= hi) by (by apply Cn); lra|]. split; [done|]. split; [intros _; split; lra|]. split; [lra|]. intros Ho Hlh Hz. exfalso. by apply Top.
Qed.
(** Safeties: at most the distance to the solid from outside, at most the distance to everything else from inside. *)
Theorem C81_safety_to_in_any : (∀ v, In v pts → Rabs (fst v) < inf ∧ Rabs (snd v) < inf) →
  ∃ d, sx_safety_to_in kvs inf s p = Some d ∧ 0 <= d ∧ (¬ column pts lo hi p → ∀ q, column pts lo hi q → d <= vdist p q).
Proof using All.
  intros Hb. destruct (sh_parts _ _ _ _ _ _ Hs) as (E & E1 & E2). unfold sx_safety_to_in. rewrite Hc. destruct (C81_extent Hb) as (_ & X & _). specialize (X Hl).
  destruct (abbox_contains (sx_extent s) p) eqn:Ea; cbn [negb].
  - rewrite E1, E2. destruct (_ && sx_contains kvs inf s p); [exists 0; split; [done|]; split; [lra|]; intros; apply vdist_nonneg|].
    destruct safety_any as (r & j & Eq & R0 & _ & _ & _ & Rs). rewrite Eq. cbn [mbind option_bind fst]. eexists. split; [done|]. split; [apply R_sqrt.sqrt_pos|].
    intros Hx q [Ho Hz]. apply Rnot_lt_le. intros Hd. apply near_any in Hd; [|done]. apply Hx. split; [by apply (Rs (xy q) Hd)|].
    unfold abbox_contains, sx_extent in Ea. cbn [bmin bmax vx vy vz] in Ea. rewrite E1, E2 in Ea. rewrite !andb_true_iff in Ea. destruct Ea as [[_ Ea1] Ea2]. apply rltb_true in Ea1. destruct (rgtb_spec hi (vz p)); [lra|done].
  - eexists. split; [done|]. set (q2 := ab_safety_sqr (sx_extent s) p). destruct (rleb_spec q2 0) as [Hq|Hq]; [split; [lra|]; intros; apply vdist_nonneg|]. split; [apply R_sqrt.sqrt_pos|].
    intros _ q Hcq. apply X in Hcq. apply (ab_safety_lower _ p) in Hcq. fold q2 in Hcq. apply sqr_le_le; [apply vdist_nonneg|]. rewrite R_sqrt.sqrt_sqrt by lra. done.
Qed.
Theorem C81_safety_to_out_any : column pts lo hi p → ∃ d, sx_safety_to_out kvs inf s p = Some d ∧ 0 <= d ∧ ∀ q, ¬ column pts lo hi q → d <= vdist p q.
Proof using All.
  intros [Ho Hz]. destruct (sh_parts _ _ _ _ _ _ Hs) as (E & E1 & E2). unfold sx_safety_to_out. rewrite Hc, E1, E2.
  destruct safety_any as (r & j & Eq & R0 & _ & _ & _ & Rs). rewrite Eq. cbn [mbind option_bind fst]. eexists. split; [done|]. pose proof (R_sqrt.sqrt_pos r).
  split; [apply Rmin_glb; [apply Rmin_glb; lra|lra]|]. intros q Hq. apply Rnot_lt_le. intros Hd. apply Hq. clear Hq. apply Rmin_Rgt_l in Hd as [Hd Hd3]. apply Rmin_Rgt_l in Hd as [Hd1 Hd2].
  apply Rgt_lt in Hd1. apply near_any in Hd1; [|done]. split; [by apply (Rs (xy q) Hd1)|]. pose proof (vdist_z p q) as Z. apply abs_le_inv in Z. lra.
Qed.
(** Normal: valid answers have length one; they belong to a plane closer than the tolerance, below or above the polygon, or to
    a side of the polygon closer than the tolerance, and point to its left in the clockwise order. *)
Theorem C81_normal_any n : tidy kTolerance pts → sx_normal kvs s p = Some (n, true) → vmag n = 1 ∧
  (odd_inside pts (xy p) ∧ (n = V3 0 0 1 ∧ Rabs (vz p - hi) < kTolerance ∨ n = V3 0 0 (-1) ∧ Rabs (vz p - lo) < kTolerance) ∨
   ∃ a b q, In (a, b) (sides (clockwise pts)) ∧ on_side a b q ∧ dist2 (xy p) q < kTolerance ∧ lo <= vz p <= hi ∧ ∀ d, vdot n d = rate a b d).
Proof using All.
  intros Td. destruct (sh_parts _ _ _ _ _ _ Hs) as (E & E1 & E2). unfold sx_normal. rewrite E1, E2. pose proof kTolerance_pos as K.
  destruct ((rltb (Rabs (vz p - hi)) kTolerance || rltb (Rabs (vz p - lo)) kTolerance) && contains_lanes (sh_poly s) kvs (vx p) (vy p)) eqn:Ez.
  - intros H. apply Some_inj in H. apply andb_true_iff in Ez as [Ez Eo]. apply lanes_odd in Eo. injection H as <-. destruct (rltb_spec (Rabs (vz p - hi)) kTolerance) as [H1|H1].
    + split; [unfold vmag, vdot; cbn [vx vy vz]; replace (0 * 0 + 0 * 0 + 1 * 1) with 1 by ring; apply sqrt_1|]. left. split; [done|by left].
    + cbn [orb] in Ez. apply rltb_true in Ez. split; [unfold vmag, vdot; cbn [vx vy vz]; replace (0 * 0 + 0 * 0 + -1 * -1) with 1 by ring; apply sqrt_1|]. left. split; [done|by right].
  - destruct (rleb_spec lo (vz p)) as [Z1|]; [|intros H; apply Some_inj in H; by injection H]. destruct (rleb_spec (vz p) hi) as [Z2|]; [|intros H; apply Some_inj in H; by injection H]. cbn [andb].
    destruct (C49_safety_sqr kvs inf pts Hn _ E (vx p) (vy p) Hk Hp Near) as (r & j & e & Eq & Ee & _ & Hr & _).
    rewrite Eq. cbn [mbind option_bind fst snd]. rewrite Nat2Z.id, Ee. cbn [mbind option_bind]. rewrite bool_decide_eq_false_2 by lia. intros H. apply Some_inj in H.
    assert (Hin : In e (pg_edges (sh_poly s))) by (apply elem_of_list_In; by eapply elem_of_list_lookup_2). destruct (edge_of _ s (sh_edges _ _ _ _ _ Hn s Hs) e Hin) as (a & b & Hab & ->).
    assert (Hr0 : r < kTolerance * kTolerance) by (apply (f_equal snd) in H; cbn in H; by apply rltb_true in H). apply (f_equal fst) in H. cbn [fst] in H. rewrite <- H. clear H.
    destruct Hr as [(x & Hx1 & Hx2 & _)|[_ (q0 & Hq0 & Hd)]]; [exfalso; nra|].
    assert (Hne : a ≠ b). { intros Eab. apply clockwise_sides in Hab as [Hab|Hab]; apply Hp in Hab; congruence. }
    destruct (tidy_clockwise _ _ Td a b Hab) as (T1 & T2 & T3). split; [by apply unit_edge|]. right. exists a, b, q0. split; [done|].
    split; [destruct a, b; exact Hq0|]. split; [done|]. split; [lra|]. intros d.
    assert (Hp0 : vdot (V3 (- e_a (mk_edge b a)) (- e_b (mk_edge b a)) 0) d = dseg (mk_edge b a) (vx d) (vy d) - dseg (mk_edge b a) 0 0) by (unfold vdot, dseg; cbn [vx vy vz]; ring).
    rewrite Hp0, !dseg_cross by done. unfold rate, cross2. cbn [fst snd]. pose proof (dist2_pos a b Hne). field. lra.
Qed.
End Near.

(** The distances to the shell *)
Lemma nearest_spec hit : nearest inf s hit <= inf ∧ (∀ e x, In e (pg_edges (sh_poly s)) → hit e = Some x → nearest inf s hit <= x) ∧
  (nearest inf s hit = inf ∨ ∃ e, In e (pg_edges (sh_poly s)) ∧ hit e = Some (nearest inf s hit)).
Proof.
  unfold nearest. generalize inf as m. induction (pg_edges (sh_poly s)) as [|e l IH]; intros m; cbn [foldl]; [split; [lra|split; [done|by left]]|].
  set (m' := match hit e with Some x => Rmin x m | None => m end). destruct (IH m') as (H1 & H2 & H3).
  assert (M : m' <= m ∧ (∀ x, hit e = Some x → m' <= x) ∧ (m' = m ∨ hit e = Some m')).
  { unfold m'. destruct (hit e) as [x|]; [|split; [lra|split; [done|by left]]]. split; [apply Rmin_r|]. split; [intros y Ey; injection Ey as ->; apply Rmin_l|].
    destruct (Rle_dec x m); [rewrite Rmin_left by done; by right|rewrite Rmin_right by lra; by left]. }
  destruct M as (M1 & M2 & M3). split; [lra|]. split.
  - intros x y [<-|Hx] Ey; [specialize (M2 y Ey); lra|by apply (H2 x)].
  - destruct H3 as [H3|(x & Hx & H3)]; [|right; exists x; split; [by right|done]]. rewrite H3. destruct M3 as [M3|M3]; [by left|right; exists e; split; [by left|done]].
Qed.
Section Rays.
Hypothesis Hp : proper_sides pts.
Hypothesis Td : tidy kTolerance pts.
Variables p d : v3.
Hypothesis Fd : ∀ a b, In (a, b) (sides pts) → zero_or kAbsorb (rate a b d).
Lemma hit_side a b : In (a, b) (sides (clockwise pts)) → a ≠ b ∧ zero_or kAbsorb (rate a b d) ∧ (∀ x y, dseg (mk_edge b a) x y = cross2 a b (x, y) / dist2 a b) ∧ proj (mk_edge b a) d = rate a b d.
Proof using Hp Td Fd.
  intros Hab. assert (Hne : a ≠ b). { intros Eab. apply clockwise_sides in Hab as [Hab|Hab]; apply Hp in Hab; congruence. }
  destruct (tidy_clockwise _ _ Td a b Hab) as (T1 & T2 & T3). pose proof (dist2_pos a b Hne). split; [done|].
  assert (Ds : ∀ x y, dseg (mk_edge b a) x y = cross2 a b (x, y) / dist2 a b) by (intros; by apply dseg_cross).
  split; [apply clockwise_sides in Hab as [Hab|Hab]; [by apply Fd|]; rewrite rate_swap; by apply zero_or_neg, Fd|]. split; [done|].
  assert (Pr : proj (mk_edge b a) d = dseg (mk_edge b a) (vx d) (vy d) - dseg (mk_edge b a) 0 0) by (unfold proj, dseg; ring). rewrite Pr, !Ds. unfold rate, cross2. cbn [fst snd]. field. lra.
Qed.
(** An exact crossing of a side, from the left to the right or back, is found at its parameter. *)
Lemma hit_exact a b u : In (a, b) (sides (clockwise pts)) → on_side a b (xy (along p d u)) → lo <= vz (along p d u) <= hi → rate a b d ≠ 0 →
  - (e_a (mk_edge b a) * vx p + e_b (mk_edge b a) * vy p + e_d (mk_edge b a)) / nz (e_a (mk_edge b a) * vx d + e_b (mk_edge b a) * vy d) = u ∧
  on_segment (mk_edge b a) (vx p + u * vx d) (vy p + u * vy d) = true ∧ lo <= vz p + u * vz d <= hi ∧ cross2 a b (xy p) / dist2 a b = - u * rate a b d.
Proof using Hp Td Fd.
  intros Hab Ho Hz Hr. destruct (hit_side a b Hab) as (Hne & Z & Ds & Pr). pose proof (dist2_pos a b Hne) as D.
  assert (D0 : cross2 a b (xy p) / dist2 a b = - u * rate a b d).
  { assert (Hd : dseg (mk_edge b a) (vx (along p d u)) (vy (along p d u)) = 0).
    { rewrite Ds. destruct Ho as (t & _ & Et). unfold xy in Et. rewrite Et. unfold cross2, way. cbn [fst snd]. unfold Rdiv. ring. }
    rewrite dseg_move, Ds, Pr in Hd. unfold xy. lra. }
  split; [|split; [|split; [unfold along in Hz; cbn in Hz; lra|done]]].
  - assert (Ep : e_a (mk_edge b a) * vx p + e_b (mk_edge b a) * vy p + e_d (mk_edge b a) = - (cross2 a b (xy p) / dist2 a b)) by (unfold xy; rewrite <- Ds; unfold dseg; ring).
    assert (Ed : e_a (mk_edge b a) * vx d + e_b (mk_edge b a) * vy d = - rate a b d) by (rewrite <- Pr; unfold proj; ring).
    rewrite Ep, Ed, nz_large by (rewrite Rabs_Ropp; destruct Z; done). rewrite D0. field. done.
  - destruct (C49_on_segment a b (vx p + u * vx d) (vy p + u * vy d) Hne) as [H _]. apply H. unfold xy, along in Ho. cbn in Ho. replace (vx p + u * vx d) with (vx p + vx d * u) by ring. replace (vy p + u * vy d) with (vy p + vy d * u) by ring.
    first [exact Ho|replace (vx p + vx d * u) with (vx p + u * vx d) by ring; replace (vy p + vy d * u) with (vy p + u * vy d) by ring; exact Ho].
Qed.
Definition at_side (a b : p2) (u : R) : Prop := on_segment (mk_edge b a) (vx p + u * vx d) (vy p + u * vy d) = true ∧ lo <= vz p + u * vz d <= hi.
(** DistanceToOut: defined unless a level ray meets no side; never beyond a crossing of a side to its left (out of the
    clockwise polygon); the answer is at a side of the polygon between the planes, or at the plane ahead. *)
Theorem C81_to_out_any : ∃ D, shell_to_out inf s p d = D ∧ (vz d ≠ 0 → sx_to_out inf s p d ≠ None) ∧
  (∀ a b u, In (a, b) (sides (clockwise pts)) → 0 <= u → on_side a b (xy (along p d u)) → lo <= vz (along p d u) <= hi → 0 < rate a b d → D <= u) ∧
  (D < inf → sx_to_out inf s p d = Some D ∧ - kTolerance <= D ∧ ∃ a b, In (a, b) (sides (clockwise pts)) ∧ - kTolerance <= rate a b d ∧ cross2 a b (xy p) / dist2 a b <= kTolerance ∧ at_side a b D) ∧
  (∀ x, D = inf → sx_to_out inf s p d = Some x → vz (along p d x) = if Rlt_dec 0 (vz d) then hi else lo).
Proof using All.
  destruct (sh_parts _ _ _ _ _ _ Hs) as (E & E1 & E2). pose proof kTolerance_pos as K. pose proof (sh_edges _ _ _ _ _ Hn s Hs) as Ee. destruct (nearest_spec (out_hit s p d)) as (N1 & N2 & N3).
  fold (shell_to_out inf s p d) in N1, N2, N3. set (D := shell_to_out inf s p d) in *. exists D. split; [done|]. unfold sx_to_out. rewrite Hc. fold D. cbv zeta. rewrite E1, E2. split; [|split; [|split]].
  - intros Hz. destruct (rltb D inf); [done|]. destruct (reqb_spec (vz d) 0); done.
  - intros a b u Hab Hu Ho Hz Hr. apply (N2 (mk_edge b a)); [rewrite Ee; apply mk_edges_in; eauto|]. destruct (hit_exact a b u Hab Ho Hz ltac:(lra)) as (X1 & X2 & X3 & X4). destruct (hit_side a b Hab) as (Hne & Z & Ds & Pr).
    assert (Ep : e_a (mk_edge b a) * vx p + e_b (mk_edge b a) * vy p + e_d (mk_edge b a) = u * rate a b d) by (unfold xy in X4; rewrite <- Ds in X4; unfold dseg in X4; lra).
    assert (Ed : e_a (mk_edge b a) * vx d + e_b (mk_edge b a) * vy d = - rate a b d) by (rewrite <- Pr; unfold proj; ring).
    unfold out_hit. rewrite X1, Ep, Ed, E1, E2, X2. replace (rleb (- rate a b d) kTolerance) with true by (symmetry; apply rleb_true; lra). cbn [negb].
    replace (rltb (u * rate a b d) (- kTolerance)) with false by (symmetry; apply rltb_false; nra).
    replace (rleb (vz p + u * vz d) hi) with true by (symmetry; apply rleb_true; lra). destruct (rgeb_spec (vz p + u * vz d) lo); [|lra]. destruct (rgeb_spec u (- kTolerance)); [done|lra].
  - intros Hd. split; [replace (rltb D inf) with true by (symmetry; by apply rltb_true); done|]. destruct N3 as [N3|(e & He & N3)]; [lra|].
    destruct (edge_of _ s Ee e He) as (a & b & Hab & ->). destruct (hit_side a b Hab) as (Hne & Z & Ds & Pr).
    assert (Ep : e_a (mk_edge b a) * vx p + e_b (mk_edge b a) * vy p + e_d (mk_edge b a) = - (cross2 a b (xy p) / dist2 a b)) by (unfold xy; rewrite <- Ds; unfold dseg; ring).
    assert (Ed : e_a (mk_edge b a) * vx d + e_b (mk_edge b a) * vy d = - rate a b d) by (rewrite <- Pr; unfold proj; ring).
    unfold out_hit in N3. rewrite Ep, Ed, E1, E2 in N3. destruct (rleb_spec (- rate a b d) kTolerance) as [G1|]; [|done]. cbn [negb] in N3.
    destruct (rltb_spec (- (cross2 a b (xy p) / dist2 a b)) (- kTolerance)) as [|G2]; [done|]. set (x := - - (cross2 a b (xy p) / dist2 a b) / nz (- rate a b d)) in *.
    destruct (rleb_spec (vz p + x * vz d) hi) as [G3|]; [|done]. destruct (rgeb_spec (vz p + x * vz d) lo) as [G4|]; [|done]. cbn [andb] in N3. destruct (on_segment _ _ _) eqn:G5; [|done]. destruct (rgeb_spec x (- kTolerance)) as [G6|]; [|done].
    cbn [andb] in N3. apply Some_inj in N3. rewrite <- N3. split; [lra|]. exists a, b. split; [done|]. split; [lra|]. split; [lra|]. split; [done|lra].
  - intros x Hd. replace (rltb D inf) with false by (symmetry; apply rltb_false; lra). destruct (reqb_spec (vz d) 0) as [|Hz]; [done|]. intros Hx. apply Some_inj in Hx. rewrite <- Hx. unfold along. cbn [vx vy vz vadd vscale].
    destruct (Rlt_dec 0 (vz d)); destruct (rgtb_spec (vz d) 0); try lra; field; done.
Qed.
(** DistanceToIn: when a finite answer is at the plane ahead, it is in the solid there and the ray is not in it before; else the
    answer is not beyond a crossing of a side to its right (into the clockwise polygon), and is at a side between the planes. *)
Theorem C81_to_in_any : lo <= hi → vz d ≠ 0 → ∃ D, sx_to_in kvs inf s p d = Some D ∧
  (let plane := if Rlt_dec 0 (vz d) then lo else hi in
   (vz (along p d D) = plane ∧ column pts lo hi (along p d D) ∧ - kTolerance <= D * Rabs (vz d) ∧ ∀ u, u < D → ¬ column pts lo hi (along p d u)) ∨
   ((∀ a b u, In (a, b) (sides (clockwise pts)) → 0 <= u → on_side a b (xy (along p d u)) → lo <= vz (along p d u) <= hi → rate a b d < 0 → D <= u) ∧
    (D = inf ∨ ∃ a b, In (a, b) (sides (clockwise pts)) ∧ rate a b d <= kTolerance ∧ - kTolerance <= cross2 a b (xy p) / dist2 a b ∧ at_side a b D))).
Proof using All.
  intros Hlh Hz. destruct (sh_parts _ _ _ _ _ _ Hs) as (E & E1 & E2). pose proof kTolerance_pos as K. pose proof (sh_edges _ _ _ _ _ Hn s Hs) as Ee. unfold sx_to_in. rewrite Hc, E1, E2.
  set (c := if rgtb (vz d) 0 then vz p - lo else hi - vz p). destruct (reqb_spec (vz d) 0) as [|_]; [done|].
  assert (Sh : (∀ a b u, In (a, b) (sides (clockwise pts)) → 0 <= u → on_side a b (xy (along p d u)) → lo <= vz (along p d u) <= hi → rate a b d < 0 → shell_to_in inf s p d <= u) ∧
    (shell_to_in inf s p d = inf ∨ ∃ a b, In (a, b) (sides (clockwise pts)) ∧ rate a b d <= kTolerance ∧ - kTolerance <= cross2 a b (xy p) / dist2 a b ∧ at_side a b (shell_to_in inf s p d))).
  { destruct (nearest_spec (in_hit s p d)) as (N1 & N2 & N3). fold (shell_to_in inf s p d) in N1, N2, N3. set (D := shell_to_in inf s p d) in *. split.
    - intros a b u Hab Hu Ho Hzz Hr. apply (N2 (mk_edge b a)); [rewrite Ee; apply mk_edges_in; eauto|]. destruct (hit_exact a b u Hab Ho Hzz ltac:(lra)) as (X1 & X2 & X3 & X4). destruct (hit_side a b Hab) as (Hne & Z & Ds & Pr).
      assert (Ep : e_a (mk_edge b a) * vx p + e_b (mk_edge b a) * vy p + e_d (mk_edge b a) = u * rate a b d) by (unfold xy in X4; rewrite <- Ds in X4; unfold dseg in X4; lra).
      assert (Ed : e_a (mk_edge b a) * vx d + e_b (mk_edge b a) * vy d = - rate a b d) by (rewrite <- Pr; unfold proj; ring).
      unfold in_hit. rewrite X1, Ep, Ed, E1, E2, X2. destruct (rgeb_spec (- rate a b d) (- kTolerance)); [|lra]. cbn [negb].
      destruct (rgtb_spec (u * rate a b d) kTolerance); [exfalso; nra|].
      replace (rleb (vz p + u * vz d) hi) with true by (symmetry; apply rleb_true; lra). destruct (rgeb_spec (vz p + u * vz d) lo); [done|lra].
    - destruct N3 as [N3|(e & He & N3)]; [by left|right]. destruct (edge_of _ s Ee e He) as (a & b & Hab & ->). destruct (hit_side a b Hab) as (Hne & Z & Ds & Pr).
      assert (Ep : e_a (mk_edge b a) * vx p + e_b (mk_edge b a) * vy p + e_d (mk_edge b a) = - (cross2 a b (xy p) / dist2 a b)) by (unfold xy; rewrite <- Ds; unfold dseg; ring).
      assert (Ed : e_a (mk_edge b a) * vx d + e_b (mk_edge b a) * vy d = - rate a b d) by (rewrite <- Pr; unfold proj; ring).
      unfold in_hit in N3. rewrite Ep, Ed, E1, E2 in N3. destruct (rgeb_spec (- rate a b d) (- kTolerance)) as [G1|]; [|done]. cbn [negb] in N3.
      destruct (rgtb_spec (- (cross2 a b (xy p) / dist2 a b)) kTolerance) as [|G2]; [done|]. set (x := - - (cross2 a b (xy p) / dist2 a b) / nz (- rate a b d)) in *.
      destruct (rleb_spec (vz p + x * vz d) hi) as [G3|]; [|done]. destruct (rgeb_spec (vz p + x * vz d) lo) as [G4|]; [|done]. cbn [andb] in N3. destruct (on_segment _ _ _) eqn:G5; [|done].
      apply Some_inj in N3. rewrite <- N3. exists a, b. split; [done|]. split; [lra|]. split; [lra|]. split; [done|lra]. }
  destruct (rltb_spec c kTolerance) as [Hcz|Hcz]; cbn [mbind option_bind]; [|eexists; split; [done|]; by right].
  set (x := - c / Rabs (vz d)). destruct (contains_lanes _ _ _ _) eqn:Eo; [|eexists; split; [done|]; by right]. exists x. split; [done|]. left.
  assert (Rabs (vz d) ≠ 0) as Ha by (by apply Rabs_no_R0). assert (Ex : x * Rabs (vz d) = - c) by (unfold x; field; done).
  assert (Ax : V3 (vx p + x * vx d) (vy p + x * vy d) (vz p + x * vz d) = along p d x) by (unfold along, vadd, vscale; cbn; f_equal; ring).
  assert (Zp : vz (along p d x) = if Rlt_dec 0 (vz d) then lo else hi).
  { rewrite <- Ax. cbn [vz]. unfold c in Ex. destruct (Rlt_dec 0 (vz d)) as [G|G]; destruct (rgtb_spec (vz d) 0); try lra; [rewrite Rabs_pos_eq in Ex by lra|rewrite Rabs_left in Ex by lra]; lra. }
  split; [done|]. split; [|split; [lra|]].
  - split; [|rewrite Zp; destruct (Rlt_dec 0 (vz d)); lra]. apply lanes_odd. by rewrite <- Ax.
  - intros u Hu [_ Hx]. assert (Au : vz (along p d u) = vz (along p d x) + (u - x) * vz d) by (unfold along, vadd, vscale; cbn; ring). rewrite Au, Zp in Hx. destruct (Rlt_dec 0 (vz d)); nra.
Qed.
End Rays.
End Solids.
Print Assumptions C81_extent.
Print Assumptions C81_contains_any.
Print Assumptions C81_inside_any.
Print Assumptions C81_safety_to_in_any.
Print Assumptions C81_safety_to_out_any.
Print Assumptions C81_normal_any.
Print Assumptions C81_to_out_any.
Print Assumptions C81_to_in_any.
