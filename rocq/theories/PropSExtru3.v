(** C81, continued: solids meeting the hypotheses of PropSExtru.v and PropSExtru2.v, and statements that do not hold. *)
From Coq Require Import Reals Lra Lia Bool ZArith Psatz.
From stdpp Require Import base list list_numbers option numbers tactics.
From Verif Require Import Real3 BoxModel AABBModel AABBSpec ABBoxModel ABBoxProofs PlanesModel PlanesProofs PolygonModel PolygonSpec PolygonProofs PolygonProofs2 PolygonProofs3 PolygonProofs4 PropPolygon PropPolygon2 PropPolygon3 SExtruModel SExtruSpec SExtruProofs PropSExtru PropSExtru2.
Import stdpp.list.
Local Open Scope R_scope.

Lemma tri_inner p : inner tri p ↔ 0 < fst p ∧ 0 < snd p ∧ 4 * fst p + 3 * snd p < 12.
Proof.
  rewrite (inner_iff _ _ tri_cw). split.
  - intros H. pose proof (H (0, 0) (0, 4) ltac:(cbn; tauto)) as H1. pose proof (H (0, 4) (3, 0) ltac:(cbn; tauto)) as H2. pose proof (H (3, 0) (0, 0) ltac:(cbn; tauto)) as H3.
    unfold cross2 in *. cbn [fst snd] in *. lra.
  - intros H a b Hs. side_cases Hs; unfold cross2; cbn [fst snd]; lra.
Qed.
Lemma tri_hull p : hull tri p ↔ 0 <= fst p ∧ 0 <= snd p ∧ 4 * fst p + 3 * snd p <= 12.
Proof.
  rewrite (hull_iff _ _ tri_cw). split.
  - intros H. pose proof (H (0, 0) (0, 4) ltac:(cbn; tauto)) as H1. pose proof (H (0, 4) (3, 0) ltac:(cbn; tauto)) as H2. pose proof (H (3, 0) (0, 0) ltac:(cbn; tauto)) as H3.
    unfold cross2 in *. cbn [fst snd] in *. lra.
  - intros H a b Hs. side_cases Hs; unfold cross2; cbn [fst snd]; lra.
Qed.
Lemma tri_rate d a b : In (a, b) (sides tri) → rate a b d = - vx d ∨ rate a b d = (3 * vy d + 4 * vx d) / 5 ∨ rate a b d = - vy d.
Proof.
  destruct tri_len as (L1 & L2 & L3). intros Hs. unfold rate. side_cases Hs; rewrite ?L1, ?L2, ?L3; cbn [fst snd]; [left|right; left|right; right]; field.
Qed.
(** The prism over the triangle: hypotheses of the theorems on convex solids are met. *)
Example C81_triangle kvs inf : kTolerance < inf → ∃ s, sh_init kvs inf tri (-1) 1 = Some s ∧
  prism_open tri (-1) 1 (V3 1 1 0) ∧ ¬ prism tri (-1) 1 (V3 5 1 0) ∧ firm kAbsorb tri (V3 1 0 0) ∧ firm kTolerance tri (V3 (-1) 0 0) ∧
  (∃ D, sx_to_out inf s (V3 1 1 0) (V3 1 0 0) = Some D ∧ D = 5 / 4) ∧
  (∃ D, sx_to_in kvs inf s (V3 5 1 0) (V3 (-1) 0 0) = Some D ∧ (D = 11 / 4 ∨ D = inf)).
Proof.
  intros Hinf. destruct (C81_init kvs inf tri (-1) 1) as (s & Hs & _); [cbn; lia|done|]. exists s. split; [done|].
  assert (P1 : prism_open tri (-1) 1 (V3 1 1 0)) by (split; [apply tri_inner; cbn; lra|cbn; lra]). split; [done|].
  assert (P2 : ¬ prism tri (-1) 1 (V3 5 1 0)) by (intros [H _]; apply tri_hull in H; cbn in H; lra). split; [done|].
  assert (F1 : firm kAbsorb tri (V3 1 0 0)).
  { split; [by left|]. intros a b Hab. destruct (tri_rate (V3 1 0 0) a b Hab) as [E|[E|E]]; rewrite E; cbn [vx vy]; unfold zero_or, kAbsorb; [right; rewrite Rabs_left; lra|right; rewrite Rabs_right; lra|left; lra]. }
  assert (F2 : firm kTolerance tri (V3 (-1) 0 0)).
  { split; [by left|]. intros a b Hab. destruct (tri_rate (V3 (-1) 0 0) a b Hab) as [E|[E|E]]; rewrite E; cbn [vx vy]; unfold zero_or, kTolerance; [right; rewrite Rabs_right; lra|right; rewrite Rabs_left; lra|left; lra]. }
  split; [done|]. split; [done|]. split.
  - destruct (C81_to_out kvs inf tri (-1) 1 ltac:(cbn; lia) s Hs (or_introl tri_cw) tri_tidy (V3 1 1 0) (V3 1 0 0)) as (D & E & D0 & D1 & D2); [lra|done|split; [apply tri_hull; cbn; lra|cbn; lra]|].
    exists D. split; [done|]. specialize (D1 D ltac:(lra)) as [D1 _]. apply tri_hull in D1. unfold along, xy in D1. cbn in D1. destruct D2 as [D2|[_ D2]].
    + apply Rle_antisym; [lra|]. apply Rnot_lt_le. intros Hx. apply (D2 (5 / 4) Hx). split; [apply tri_hull; unfold along, xy; cbn; lra|unfold along; cbn; lra].
    + exfalso. rewrite D2 in D1. cbn [vz] in D1. unfold kTiny in D1. assert ((1 - 0) / / 10 ^ 30 = 10 ^ 30) as E30 by (field; lra). rewrite E30 in D1. lra.
  - destruct (C81_to_in kvs inf tri (-1) 1 ltac:(cbn; lia) s Hs (or_introl tri_cw) tri_tidy (V3 5 1 0) (V3 (-1) 0 0)) as (D & E & D1 & _); [lra|by left|intros a b Hab; by apply F2|].
    exists D. split; [done|]. destruct (Req_dec D inf) as [|Hne]; [by right|left]. destruct (D1 Hne) as (A1 & A2 & A3). specialize (A3 P2). rewrite Rmax_right in A1 by lra. destruct A1 as [A1 _]. apply tri_hull in A1. unfold along, xy in A1. cbn in A1.
    apply Rle_antisym; [|lra]. apply Rnot_lt_le. intros Hx. apply (A2 (11 / 4) ltac:(lra)). split; [apply tri_hull; unfold along, xy; cbn; lra|unfold along; cbn; lra].
Qed.
(** The prism over the angle: hypotheses of the theorems on other solids are met. *)
Lemma ell_len a b : In (a, b) (sides ell) → dist2 a b = 1 ∨ dist2 a b = 2.
Proof. intros H. ell_cases H; first [left; apply dist2_is; cbn; lra|right; apply dist2_is; cbn; lra]. Qed.
Lemma ell_tidy : tidy kTolerance ell.
Proof.
  intros a b Hs. pose proof (ell_len a b Hs) as L. unfold zero_or, kTolerance. ell_cases Hs; unfold cross2; cbn [fst snd]; destruct L as [L|L]; rewrite L.
  all: repeat split; first [left; lra|right; rewrite Rabs_right; lra|right; rewrite Rabs_left; lra].
Qed.
Example C81_ell kvs inf : (0 < kvs)%nat → ∃ s, sh_init kvs inf ell (-1) 1 = Some s ∧ pg_convex (sh_poly s) = false ∧ level_or kAbsorb ell ∧ proper_sides ell ∧ tidy kTolerance ell ∧
  column ell (-1) 1 (V3 (/ 2) (3 / 2) 0) ∧ ¬ column ell (-1) 1 (V3 (3 / 2) (3 / 2) 0) ∧ (∃ q, border ell q ∧ dist2 (3 / 2, 3 / 2) q < 10 ^ 15) ∧
  sx_contains kvs inf s (V3 (/ 2) (3 / 2) 0) = true ∧ sx_contains kvs inf s (V3 (3 / 2) (3 / 2) 0) = false.
Proof.
  intros Hk. destruct (C81_init kvs inf ell (-1) 1) as (s & Hs & _); [cbn; lia|done|]. exists s. split; [done|]. destruct (sh_parts _ _ _ _ _ _ Hs) as (E & _).
  assert (Hc := ell_concave _ _ _ E). split; [done|]. split; [apply ell_level|]. split; [apply ell_proper|]. split; [apply ell_tidy|].
  assert (Cn := C81_contains_any kvs inf ell (-1) 1 ltac:(cbn; lia) s Hs Hc ell_level Hk).
  assert (C1 : column ell (-1) 1 (V3 (/ 2) (3 / 2) 0)) by (split; [apply ell_odd; unfold xy; cbn; lra|cbn; lra]).
  assert (C2 : ¬ column ell (-1) 1 (V3 (3 / 2) (3 / 2) 0)) by (intros [H _]; apply ell_odd in H; unfold xy in H; cbn in H; lra).
  split; [done|]. split; [done|]. split.
  - exists (3 / 2, 1). split; [exists (1, 1), (2, 1); split; [cbn; tauto|]; exists (/ 2); split; [lra|]; apply p2_eq; cbn; lra|]. rewrite (dist2_is _ _ (/ 2)); [lra|lra|cbn; lra].
  - split; [by apply Cn|]. apply not_true_is_false. intros Hx. by apply Cn in Hx.
Qed.

(** Inside answers kInside to points above the solid by exactly the tolerance. *)
Theorem C81_inside_refuted kvs inf s : kTolerance < inf → sh_init kvs inf tri 0 1 = Some s →
  sx_inside kvs inf s (V3 1 1 (1 + kTolerance)) = Some kInside ∧ ¬ prism tri 0 1 (V3 1 1 (1 + kTolerance)).
Proof.
  intros Hinf Hs. pose proof kTolerance_pos as K. assert (K1 : kTolerance < / 2) by (unfold kTolerance; lra). split; [|intros [_ Hz]; cbn in Hz; lra].
  destruct (sh_parts _ _ _ _ _ _ Hs) as (E & E1 & E2). unfold sx_inside. rewrite E1, E2. cbn [vx vy vz]. rewrite (sh_convex kvs inf tri 0 1 ltac:(cbn; lia) s Hs (or_introl tri_cw)).
  destruct (rgtb_spec (1 + kTolerance) (1 + kTolerance)); [lra|]. destruct (rltb_spec (1 + kTolerance) (0 - kTolerance)); [lra|].
  destruct (rltb_spec (Rabs (1 + kTolerance - 1)) kTolerance) as [Hx|_]; [rewrite Rabs_pos_eq in Hx; lra|]. destruct (rltb_spec (Rabs (1 + kTolerance - 0)) kTolerance) as [Hx|_]; [rewrite Rabs_pos_eq in Hx; lra|]. cbn [orb].
  f_equal. destruct (C49_inside_convex kvs inf tri ltac:(cbn; lia) _ E (or_introl tri_cw) tri_tidy Hinf 1 1) as [H _]. apply H. intros q Hq. apply (inner_iff _ _ tri_cw). intros a b Hab.
  pose proof (convex_proper _ tri_cw a b Hab) as Hne. pose proof (cross2_rate a b q (1, 1) Hne) as R. rewrite (dist2_comm q) in R.
  assert (cross2 a b (1, 1) / dist2 a b = -1). { destruct tri_len as (L1 & L2 & L3). side_cases Hab; rewrite ?L1, ?L2, ?L3; unfold cross2; cbn [fst snd]; field. }
  assert (Hx : cross2 a b q / dist2 a b < 0) by lra. apply cross_sign in Hx; [lra|done].
Qed.
Print Assumptions C81_inside_refuted.
(** Over other polygons, Inside answers kOutside next to an edge of the solid, closer than the tolerance. *)
Theorem C81_edge_refuted kvs inf s : (0 < kvs)%nat → sh_init kvs inf ell 0 1 = Some s → let p := V3 (/ 2) (2 + kTolerance / 4) (1 + kTolerance / 4) in
  sx_inside kvs inf s p = Some kOutside ∧ ∃ q, column ell 0 1 q ∧ vdist p q < kTolerance.
Proof.
  intros Hk Hs. cbv zeta. pose proof kTolerance_pos as K. assert (K1 : kTolerance < / 2) by (unfold kTolerance; lra). set (p := V3 _ _ _).
  destruct (sh_parts _ _ _ _ _ _ Hs) as (E & E1 & E2). assert (Hc := ell_concave _ _ _ E). split.
  - assert (No : ¬ odd_inside ell (xy p)) by (unfold odd_inside; rewrite ell_odd; unfold p, xy; cbn; lra).
    assert (L : contains_lanes (sh_poly s) kvs (vx p) (vy p) = false) by (apply not_true_is_false; intros Hx; apply (lanes_odd kvs inf ell 0 1 ltac:(cbn; lia) s Hs ell_level Hk) in Hx; done).
    assert (Cn : sx_contains kvs inf s p = false) by (apply not_true_is_false; intros Hx; apply (C81_contains_any kvs inf ell 0 1 ltac:(cbn; lia) s Hs Hc ell_level Hk) in Hx; destruct Hx; done).
    unfold sx_inside. rewrite E1, E2, Hc, L, Cn. rewrite andb_false_r. unfold p. cbn [vz]. destruct (rgtb_spec (1 + kTolerance / 4) (1 + kTolerance)); [lra|]. destruct (rltb_spec (1 + kTolerance / 4) (0 - kTolerance)); [lra|].
    destruct (rleb_spec 0 (1 + kTolerance / 4)); [|lra]. destruct (rleb_spec (1 + kTolerance / 4) 1); [lra|]. done.
  - exists (V3 (/ 2) (2 - kTolerance / 4) 1). split; [split; [apply ell_odd; unfold xy; cbn; lra|cbn; lra]|]. apply Rnot_le_lt. intros Hx.
    pose proof (vdist_sqr p (V3 (/ 2) (2 - kTolerance / 4) 1)) as S. unfold p, vdot, vsub in S. cbn [vx vy vz] in S. fold p in S. pose proof (vdist_nonneg p (V3 (/ 2) (2 - kTolerance / 4) 1)). nra.
Qed.
Print Assumptions C81_edge_refuted.
(** The surface area of the shell takes the root of the sum of the squared lengths: 12 for the triangle would be right. *)
Theorem C81_area_refuted kvs inf s lo hi : lo < hi → sh_init kvs inf tri lo hi = Some s →
  sx_area s = R_sqrt.sqrt 50 * (hi - lo) + 12 ∧ sx_area s < 12 * (hi - lo) + 12.
Proof.
  intros Hlh Hs. destruct (sh_parts _ _ _ _ _ _ Hs) as (E & E1 & E2). pose proof (tri_stored _ _ _ E) as Ee.
  assert (A : sx_area s = R_sqrt.sqrt 50 * (hi - lo) + 12).
  { unfold sx_area, sh_area. destruct (C49_init kvs inf tri ltac:(cbn; lia) ltac:(done)) as (P & EP & _ & Ar & _). rewrite E in EP. injection EP as <-. rewrite Ar, E1, E2.
    assert (Sh : shoelace tri = - 12) by (unfold shoelace; cbn; lra). rewrite Sh, Rabs_left by lra. rewrite Ee, tri_edges. cbn [foldl]. unfold mk_edge. cbn [e_lsq].
    replace (0 + ((0 - 3) * (0 - 3) + (0 - 0) * (0 - 0)) + ((0 - 0) * (0 - 0) + (4 - 0) * (4 - 0)) + ((3 - 0) * (3 - 0) + (0 - 4) * (0 - 4))) with 50 by ring. lra. }
  split; [done|]. rewrite A. assert (R_sqrt.sqrt 50 < 12); [|nra]. apply Rnot_le_lt. intros Hx. pose proof (R_sqrt.sqrt_sqrt 50 ltac:(lra)). nra.
Qed.
Print Assumptions C81_area_refuted.
Lemma up_proj e : proj e (V3 0 0 1) = 0.
Proof. unfold proj. cbn. ring. Qed.
Lemma tri_up kvs inf s lo hi z : sh_init kvs inf tri lo hi = Some s → lo <= z <= hi → sx_to_out inf s (V3 1 1 z) (V3 0 0 1) = Some (/ 2 * (hi - lo) - z).
Proof.
  intros Hs Hz. destruct (sh_parts _ _ _ _ _ _ Hs) as (E & E1 & E2). pose proof (tri_stored _ _ _ E) as Ee. pose proof kTolerance_pos as K. unfold sx_to_out.
  rewrite (sh_convex kvs inf tri lo hi ltac:(cbn; lia) s Hs (or_introl tri_cw)). f_equal. rewrite to_out_convex_eq. cbn [vz]. rewrite E1, E2. cbv zeta.
  destruct (rgtb_spec (Rabs (z - / 2 * (lo + hi)) - / 2 * (hi - lo)) kTolerance) as [Hx|_]; [exfalso; assert (Rabs (z - / 2 * (lo + hi)) <= / 2 * (hi - lo)) by (apply Rabs_le; lra); lra|].
  destruct (rltb_spec 1 0) as [|_]; [lra|]. set (t := (/ 2 * (hi - lo) - z) / nz 1).
  assert (Et : t = / 2 * (hi - lo) - z) by (unfold t; rewrite nz_large by (unfold kAbsorb; rewrite Rabs_right; lra); field).
  destruct (out_loop_spec (V3 1 1 z) (V3 0 0 1) (pg_edges (sh_poly s)) t) as (_ & _ & [H|(e & _ & H & _)]); [|rewrite H; done|rewrite up_proj in H; lra].
  intros e He. destruct (edge_of _ s Ee e He) as (a & b & Hab & ->). cbn [vx vy]. rewrite (edge_dseg _ tri_cw tri_tidy) by done. assert (cross2 a b (1, 1) / dist2 a b = -1); [|lra].
  destruct tri_len as (L1 & L2 & L3). side_cases Hab; rewrite ?L1, ?L2, ?L3; unfold cross2; cbn [fst snd]; field.
Qed.
(** DistanceToOut takes the middle for height zero: between -3 and -1 the answer is 3 where the ray leaves at 1, and between 1
    and 3 it is -1. *)
Theorem C81_off_centre_refuted kvs inf s s' : sh_init kvs inf tri (-3) (-1) = Some s → sh_init kvs inf tri 1 3 = Some s' →
  prism_open tri (-3) (-1) (V3 1 1 (-2)) ∧ sx_to_out inf s (V3 1 1 (-2)) (V3 0 0 1) = Some 3 ∧ (∀ u, 1 < u → ¬ prism tri (-3) (-1) (along (V3 1 1 (-2)) (V3 0 0 1) u)) ∧
  prism_open tri 1 3 (V3 1 1 2) ∧ sx_to_out inf s' (V3 1 1 2) (V3 0 0 1) = Some (-1).
Proof.
  intros Hs Hs'. split; [split; [apply tri_inner; cbn; lra|cbn; lra]|]. split; [rewrite (tri_up _ _ _ _ _ _ Hs) by lra; f_equal; lra|]. split; [intros u Hu [_ Hz]; unfold along in Hz; cbn in Hz; lra|].
  split; [split; [apply tri_inner; cbn; lra|cbn; lra]|]. rewrite (tri_up _ _ _ _ _ _ Hs') by lra. f_equal. lra.
Qed.
Print Assumptions C81_off_centre_refuted.
(** DistanceToIn misses solids when a direction approaches a side by less than the tolerance: the square prism, from the left
    and almost level. *)
Definition sq4 : list p2 := [(-1, -1); (-1, 1); (1, 1); (1, -1)].
Lemma sq4_cw : convex_cw sq4.
Proof.
  split; [cbn; lia|]. split.
  - apply list_nodup. repeat (apply NoDup_cons; split; [rewrite ?elem_of_cons, ?elem_of_nil; intros Hx; repeat destruct Hx as [Hx|Hx]; try done; injection Hx; intros; lra|]). apply NoDup_nil_2.
  - intros u v w Hs Hw N1 N2. cbn [sides chain app sq4] in Hs. destruct Hs as [E|[E|[E|[E|[]]]]]; injection E as <- <-; cbn in Hw; destruct Hw as [<-|[<-|[<-|[<-|[]]]]]; try done; unfold cross2; cbn; lra.
Qed.
Lemma sq4_len a b : In (a, b) (sides sq4) → dist2 a b = 2.
Proof. intros H. cbn [sides chain app sq4] in H. destruct H as [E|[E|[E|[E|[]]]]]; injection E as <- <-; apply dist2_is; cbn; lra. Qed.
Lemma sq4_tidy : tidy kTolerance sq4.
Proof.
  intros a b Hs. rewrite (sq4_len a b Hs). unfold zero_or, kTolerance. cbn [sides chain app sq4] in Hs. destruct Hs as [E|[E|[E|[E|[]]]]]; injection E as <- <-; unfold cross2; cbn [fst snd].
  all: repeat split; first [left; lra|right; rewrite Rabs_right; lra|right; rewrite Rabs_left; lra].
Qed.
Lemma sq4_inner p : inner sq4 p ↔ -1 < fst p < 1 ∧ -1 < snd p < 1.
Proof.
  rewrite (inner_iff _ _ sq4_cw). split.
  - intros H. pose proof (H (-1, -1) (-1, 1) ltac:(cbn; tauto)) as H1. pose proof (H (-1, 1) (1, 1) ltac:(cbn; tauto)) as H2. pose proof (H (1, 1) (1, -1) ltac:(cbn; tauto)) as H3. pose proof (H (1, -1) (-1, -1) ltac:(cbn; tauto)) as H4.
    unfold cross2 in *. cbn [fst snd] in *. lra.
  - intros H a b Hs. cbn [sides chain app sq4] in Hs. destruct Hs as [E|[E|[E|[E|[]]]]]; injection E as <- <-; unfold cross2; cbn [fst snd]; lra.
Qed.
Theorem C81_grazing_refuted kvs inf s : sh_init kvs inf sq4 (-1) 1 = Some s →
  let t := / 1000000000000 in let p := V3 (-5) 0 0 in let d := V3 ((1 - t * t) / (1 + t * t)) (2 * t / (1 + t * t)) 0 in
  vmag d = 1 ∧ deep (/ 2) (prism_open sq4 (-1) 1) (along p d 5) ∧ sx_to_in kvs inf s p d = Some inf.
Proof.
  intros Hs. cbv zeta. set (t := / 1000000000000). set (d := V3 _ _ 0). destruct (sh_parts _ _ _ _ _ _ Hs) as (E & E1 & E2). pose proof kTolerance_pos as K.
  assert (Ee : pg_edges (sh_poly s) = mk_edges sq4) by (rewrite (sh_edges kvs inf sq4 (-1) 1 ltac:(cbn; lia) s Hs); f_equal; apply cw_clockwise, sq4_cw).
  assert (Dx : / 2 <= vx d <= 1) by (unfold d, t; cbn [vx]; lra). assert (Dy : / 1000000000000 <= vy d <= / 100000000000) by (unfold d, t; cbn [vy]; lra).
  split; [|split].
  - unfold vmag. replace (vdot d d) with 1; [apply sqrt_1|]. unfold d, vdot. cbn [vx vy vz]. field. assert (0 <= t * t) by apply Rle_0_sqr. lra.
  - intros q Hq. assert (V := Hq). pose proof (vdist_xy (along (V3 (-5) 0 0) d 5) q) as D. pose proof (vdist_z (along (V3 (-5) 0 0) d 5) q) as Z.
    assert (Bx : ∀ a b, Rabs (fst a - fst b) <= dist2 a b ∧ Rabs (snd a - snd b) <= dist2 a b).
    { intros a b. pose proof (dist2_sqr a b) as S. pose proof (dist2_nonneg a b). pose proof (Rle_0_sqr (fst a - fst b)). pose proof (Rle_0_sqr (snd a - snd b)). unfold Rsqr in *.
      split; (apply sqr_le_le; [done|]); rewrite <- Rabs_mult, Rabs_pos_eq by apply Rle_0_sqr; lra. }
    destruct (Bx (xy (along (V3 (-5) 0 0) d 5)) (xy q)) as [B1 B2]. assert (Dx' : 1 - / 100000000000 <= vx d) by (unfold d, t; cbn [vx]; lra).
    assert (Vz : vz d = 0) by done. assert (C1 := Rle_trans _ _ _ B1 (Rle_trans _ _ _ D Hq)). assert (C2 := Rle_trans _ _ _ B2 (Rle_trans _ _ _ D Hq)). assert (C3 := Rle_trans _ _ _ Z Hq).
    apply abs_le_inv in C1, C2, C3. unfold along, xy in C1, C2, C3. cbn [vx vy vz vadd vscale fst snd] in C1, C2, C3. rewrite Vz in C3. clearbody d. split; [apply sq4_inner; unfold xy; cbn [fst snd]; lra|lra].
  - unfold sx_to_in. rewrite (sh_convex kvs inf sq4 (-1) 1 ltac:(cbn; lia) s Hs (or_introl sq4_cw)). f_equal. unfold to_in_convex. rewrite E1, E2. destruct (_ && _); [done|].
    set (t1 := (_ + _) * _). set (t2 := (_ - _) * _). pose proof (in_sides_spec (V3 (-5) 0 0) d (pg_edges (sh_poly s)) t1 t2) as L. destruct (to_in_sides _ _ _ t1 t2) as [[r1 r2]|]; [|done].
    destruct L as (L1 & _ & _ & L4 & _). destruct (rltb_spec r2 (r1 + kTolerance)) as [_|Hx]; [done|]. exfalso.
    assert (Sl : In ((-1, -1), (-1, 1)) (sides sq4)) by (cbn; tauto). assert (Sb : In ((1, -1), (-1, -1)) (sides sq4)) by (cbn; tauto).
    assert (Il : In (mk_edge (-1, 1) (-1, -1)) (pg_edges (sh_poly s))) by (rewrite Ee; apply mk_edges_in; eauto). assert (Ib : In (mk_edge (-1, -1) (1, -1)) (pg_edges (sh_poly s))) by (rewrite Ee; apply mk_edges_in; eauto).
    assert (Al : dseg (mk_edge (-1, 1) (-1, -1)) (-5) 0 = 4) by (rewrite (edge_dseg _ sq4_cw sq4_tidy) by done; rewrite (sq4_len _ _ Sl); unfold cross2; cbn [fst snd]; lra).
    assert (Ab : dseg (mk_edge (-1, -1) (1, -1)) (-5) 0 = -1) by (rewrite (edge_dseg _ sq4_cw sq4_tidy) by done; rewrite (sq4_len _ _ Sb); unfold cross2; cbn [fst snd]; lra).
    assert (Pl : proj (mk_edge (-1, 1) (-1, -1)) d = - vx d) by (rewrite (proj_rate _ sq4_cw sq4_tidy) by done; unfold rate; rewrite (sq4_len _ _ Sl); cbn [fst snd]; lra).
    assert (Pb : proj (mk_edge (-1, -1) (1, -1)) d = - vy d) by (rewrite (proj_rate _ sq4_cw sq4_tidy) by done; unfold rate; rewrite (sq4_len _ _ Sb); cbn [fst snd]; lra).
    cbn [vx vy] in L1, L4. specialize (L1 _ Il). specialize (L4 _ Ib). rewrite Al, Pl in L1. rewrite Ab, Pb in L4. destruct (L1 ltac:(lra)) as [_ L1']. specialize (L4 ltac:(unfold kTolerance; lra) ltac:(unfold kTolerance; lra)).
    rewrite nz_large in L1' by (unfold kAbsorb; rewrite Rabs_left; lra). rewrite nz_large in L4 by (unfold kAbsorb; rewrite Rabs_left; lra).
    assert (0 < / vx d) by (apply Rinv_0_lt_compat; lra). assert (0 < / vy d) by (apply Rinv_0_lt_compat; lra).
    replace (- (4) / - vx d) with (4 * / vx d) in L1' by (field; lra). replace (- -1 / - vy d) with (- / vy d) in L4 by (field; lra). lra.
Qed.
Print Assumptions C81_grazing_refuted.
