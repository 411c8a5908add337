(** C49: planar polygons.  See properties.jsonl; [P] is what the constructor makes of the points [pts], given clockwise or
    counter-clockwise.  [inf] is the largest double. *)
From Coq Require Import Reals Lra Lia Bool ZArith Psatz.
From stdpp Require Import base list list_numbers option numbers tactics.
From Verif Require Import Real3 BoxModel AABBModel PlanesModel PlanesProofs PolygonModel PolygonSpec PolygonProofs PolygonProofs2 PolygonProofs3.
Import stdpp.list.
Local Open Scope R_scope.

Section Polygons.
Variables (kvs : nat) (inf : R) (pts : list p2).
Hypothesis Hn : (Z.of_nat (length pts) < 2 ^ 62)%Z.
Notation convex := (convex_cw pts ∨ convex_ccw pts).

(** Construction never throws; the area is that of the shoelace formula, whatever the direction, the buffers hold the edges
    again and again after the last one. *)
Theorem C49_init : pts ≠ [] → ∃ P, pg_init kvs inf pts = Some P ∧
  length (pg_edges P) = length pts ∧ pg_area (pg_edges P) = / 2 * Rabs (shoelace pts) ∧
  length (pg_edges P ++ pg_tail P) = Nat.max (length pts) (buffer_size kvs (length pts)) ∧
  (∀ i e, (pg_edges P ++ pg_tail P) !! i = Some e → pg_edges P !! (i mod length pts)%nat = Some e) ∧
  (convex → pg_convex P = true).
Proof using Hn.
  intros Hp. destruct (init_some kvs inf pts Hp Hn) as (t & Et & E). eexists. split; [exact E|]. cbn [pg_edges pg_tail pg_convex].
  assert (L : length (mk_edges (clockwise pts)) = length pts) by (by rewrite length_mk_edges, (Permutation_length (clockwise_perm pts))).
  assert (Ln : length pts ≠ 0%nat) by (by destruct pts).
  split; [done|]. split; [rewrite area_shoelace, clockwise_shoelace; lra|].
  destruct (mk_tail_some kvs (mk_edges (clockwise pts))) as (t' & Et' & Lt & Ht); [intros Hx; rewrite Hx in L; cbn in L; lia|].
  rewrite Et in Et'. injection Et' as <-. rewrite L in Lt, Ht. split; [rewrite app_length; lia|]. split.
  - intros i e Hi. apply lookup_app_Some in Hi as [Hi|[Hge Hi]].
    + apply lookup_lt_Some in Hi as Hl. by rewrite Nat.mod_small by lia.
    + rewrite L in Hge, Hi. apply lookup_lt_Some in Hi as Hl. rewrite Ht in Hi by done. replace (length pts + (i - length pts))%nat with i in Hi by lia. done.
  - intros Hc. by apply convexity_true, convex_clockwise.
Qed.

Variable P : polygon.
Hypothesis Hi : pg_init kvs inf pts = Some P.
Lemma not_nil : pts ≠ [].
Proof. intros E. unfold pg_init in Hi. by rewrite decide_True in Hi. Qed.
Lemma edges_eq : pg_edges P = mk_edges (clockwise pts).
Proof. destruct (init_some kvs inf pts not_nil Hn) as (t & _ & E). rewrite Hi in E. by injection E as ->. Qed.
Lemma extent_eq : pg_minx P = foldl (λ m v, Rmin (fst v) m) inf (clockwise pts) ∧ pg_miny P = foldl (λ m v, Rmin (snd v) m) inf (clockwise pts) ∧
  pg_maxx P = foldl (λ m v, Rmax (fst v) m) (- inf) (clockwise pts) ∧ pg_maxy P = foldl (λ m v, Rmax (snd v) m) (- inf) (clockwise pts).
Proof. destruct (init_some kvs inf pts not_nil Hn) as (t & _ & E). rewrite Hi in E. by injection E as ->. Qed.
Lemma in_clockwise v : In v (clockwise pts) ↔ In v pts.
Proof. split; apply Permutation_in; [|symmetry]; apply clockwise_perm. Qed.
Lemma tidy_clockwise c : tidy c pts → tidy c (clockwise pts).
Proof.
  intros H a b Hs. apply clockwise_sides in Hs as [Hs|Hs]; [by apply H|]. destruct (H b a Hs) as (H1 & H2 & H3). rewrite (dist2_comm a b).
  replace (fst b - fst a) with (- (fst a - fst b)) by ring. replace (snd b - snd a) with (- (snd a - snd b)) by ring. rewrite (cross2_swap b a). rewrite !Ropp_div.
  split; [by apply zero_or_neg|split; by apply zero_or_neg].
Qed.
Lemma fold_min_spec (f : p2 → R) l m : let r := foldl (λ m v, Rmin (f v) m) m l in
  r <= m ∧ (∀ v, In v l → r <= f v) ∧ (r = m ∨ ∃ v, In v l ∧ r = f v).
Proof.
  revert m. induction l as [|v l IH]; intros m; cbn [foldl]; [split; [lra|split; [done|by left]]|]. destruct (IH (Rmin (f v) m)) as (H1 & H2 & H3).
  pose proof (Rmin_l (f v) m). pose proof (Rmin_r (f v) m). cbv zeta. split; [lra|]. split; [intros x [<-|Hx]; [lra|by apply H2]|].
  destruct H3 as [H3|(x & Hx & H3)]; [|right; exists x; split; [by right|done]]. rewrite H3. destruct (Rle_dec (f v) m); [right; exists v; split; [by left|by apply Rmin_left]|left; apply Rmin_right; lra].
Qed.
(** The extent: every point is inside, and (for points below [inf]) every bound is met. *)
Theorem C49_extent : (∀ v, In v pts → Rabs (fst v) < inf ∧ Rabs (snd v) < inf) →
  (∀ v, In v pts → pg_minx P <= fst v <= pg_maxx P ∧ pg_miny P <= snd v <= pg_maxy P) ∧
  (∃ v, In v pts ∧ fst v = pg_minx P) ∧ (∃ v, In v pts ∧ fst v = pg_maxx P) ∧ (∃ v, In v pts ∧ snd v = pg_miny P) ∧ ∃ v, In v pts ∧ snd v = pg_maxy P.
Proof using Hn Hi.
  intros Hb. destruct extent_eq as (-> & -> & -> & ->).
  assert (Hb' : ∀ v, In v (clockwise pts) → - inf < fst v < inf ∧ - inf < snd v < inf).
  { intros v Hv. apply in_clockwise in Hv. destruct (Hb v Hv) as [B1 B2]. apply Rabs_def2 in B1, B2. lra. }
  assert (Hz : ∃ z, In z (clockwise pts)).
  { assert (∃ z, In z pts) as [z Hz] by (pose proof not_nil as N; destruct pts as [|z r]; [done|exists z; by left]). exists z. by apply in_clockwise. }
  destruct Hz as [z Hz]. pose proof (Hb' z Hz) as Bz.
  destruct (fold_min_spec fst (clockwise pts) inf) as (A1 & A2 & A3). destruct (fold_min_spec snd (clockwise pts) inf) as (B1 & B2 & B3).
  destruct (fold_max_spec fst (clockwise pts) (- inf)) as (C1 & C2 & C3). destruct (fold_max_spec snd (clockwise pts) (- inf)) as (D1 & D2 & D3).
  split; [intros v Hv; apply in_clockwise in Hv; specialize (A2 v Hv); specialize (B2 v Hv); specialize (C2 v Hv); specialize (D2 v Hv); lra|].
  specialize (A2 z Hz). specialize (B2 z Hz). specialize (C2 z Hz). specialize (D2 z Hz). split; [|split; [|split]].
  - destruct A3 as [A3|(v & Hv & A3)]; [lra|]. exists v. by rewrite in_clockwise in Hv.
  - destruct C3 as [C3|(v & Hv & C3)]; [lra|]. exists v. by rewrite in_clockwise in Hv.
  - destruct B3 as [B3|(v & Hv & B3)]; [lra|]. exists v. by rewrite in_clockwise in Hv.
  - destruct D3 as [D3|(v & Hv & D3)]; [lra|]. exists v. by rewrite in_clockwise in Hv.
Qed.

(** Convex polygons whose unit normals and offsets have no component that is cut to zero. *)
Section Convex.
Hypothesis Cv : convex.
Hypothesis Td : tidy kTolerance pts.
Hypothesis Hinf : kTolerance < inf.
Let C : convex_cw (clockwise pts) := convex_clockwise _ Cv.
Let T : tidy kTolerance (clockwise pts) := tidy_clockwise _ Td.
(** ContainsConvex, the scalar specialisation and the template: the points of the hull that are not on the border. *)
Theorem C49_contains_convex px py :
  (contains_convex inf P px py = true ↔ inner pts (px, py)) ∧ contains_convex_t inf P px py = contains_convex inf P px py.
Proof using All.
  split; [|unfold contains_convex_t, contains_convex; by rewrite far_max]. rewrite (contains_convex_inner inf Hinf _ C T P edges_eq). apply inner_clockwise.
Qed.
(** InsideConvex (scalar): kInside when everything within the tolerance is inside, and only then; kOutside only when the
    whole polygon is farther than the tolerance; it agrees with ContainsConvex, and is kSurface on the border. *)
Theorem C49_inside_convex px py :
  (inside_convex inf P px py = kInside ↔ ∀ q, dist2 (px, py) q <= kTolerance → inner pts q) ∧
  (inside_convex inf P px py = kOutside → ∀ q, hull pts q → kTolerance < dist2 (px, py) q) ∧
  (inside_convex inf P px py = kInside → contains_convex inf P px py = true) ∧
  (contains_convex inf P px py = true → inside_convex inf P px py ≠ kOutside) ∧
  (border pts (px, py) → inside_convex inf P px py = kSurface).
Proof using All.
  pose proof kTolerance_pos as K. pose proof edges_eq as E. set (m := max_seg inf P px py).
  assert (Hin : inside_convex inf P px py = kInside ↔ m < - kTolerance).
  { unfold inside_convex. fold m. destruct (rgtb_spec m kTolerance); [split; [done|lra]|]. destruct (rltb_spec m (- kTolerance)); split; done. }
  assert (Hout : inside_convex inf P px py = kOutside ↔ kTolerance < m).
  { unfold inside_convex. fold m. destruct (rgtb_spec m kTolerance); [split; [lra|done]|]. destruct (rltb_spec m (- kTolerance)); (split; [done|lra]). }
  assert (Hc : contains_convex inf P px py = true ↔ m < 0) by (unfold contains_convex; apply rltb_true).
  rewrite Hin, Hout, Hc. split; [|split; [|split; [|split]]].
  - unfold m. rewrite (deep_iff inf _ C T P E) by lra. split; intros H q Hq; apply inner_clockwise; by apply H.
  - intros Hm q Hq. apply hull_clockwise in Hq. destruct (max_outside inf _ C T P E px py q Hq) as [Hz|Hz]; fold m in Hz; lra.
  - lra.
  - lra.
  - intros Hb. assert (Hb' := Hb). apply border_clockwise in Hb'. assert (Hh : hull (clockwise pts) (px, py)) by (by apply border_hull).
    assert (M0 : m <= 0) by (by apply (hull_max inf Hinf _ C T P E)).
    pose proof (safety_below inf _ C T P E px py (px, py) Hh Hb') as M1. fold m in M1. assert (Z : dist2 (px, py) (px, py) = 0) by apply vdist_refl. rewrite Z in M1.
    unfold inside_convex. fold m. destruct (rgtb_spec m kTolerance); [lra|]. destruct (rltb_spec m (- kTolerance)); [lra|done].
Qed.
(** SafetyConvex (scalar): inside, the distance to the border (at most it for polygons larger than [inf]); outside, at most the
    distance to the polygon and positive. *)
Theorem C49_safety_convex px py :
  (hull pts (px, py) → let s := safety_convex inf P true px py in 0 <= s ∧ (∀ q, border pts q → s <= dist2 (px, py) q) ∧ (s < inf → distance_to (border pts) (px, py) s)) ∧
  (¬ hull pts (px, py) → let s := safety_convex inf P false px py in 0 < s ∧ ∀ q, hull pts q → s <= dist2 (px, py) q).
Proof using All.
  pose proof kTolerance_pos as K. pose proof edges_eq as E. set (m := max_seg inf P px py). unfold safety_convex. fold m. cbv zeta. split.
  - intros Hh. apply hull_clockwise in Hh. pose proof (hull_max inf Hinf _ C T P E px py Hh) as M0. fold m in M0.
    assert (B : ∀ q, border pts q → m * -1 <= dist2 (px, py) q).
    { intros q Hq. apply border_clockwise in Hq. pose proof (safety_below inf _ C T P E px py q Hh Hq) as Hz. fold m in Hz. lra. }
    split; [lra|]. split; [done|]. intros Hs. split; [done|].
    destruct (safety_attained inf Hinf _ C T P E px py Hh) as (q & Hq & Eq); [fold m; lra|]. fold m in Eq. exists q. split; [by apply border_clockwise|lra].
  - intros Hh. split.
    + apply Rnot_le_lt. intros Hm. apply Hh, hull_clockwise, hull_iff; [done|]. intros a b Hs.
      destruct (max_seg_spec inf _ C T P E px py) as (_ & M & _). specialize (M a b Hs). fold m in M. pose proof (convex_proper _ C a b Hs) as Hab.
      pose proof (dist2_pos a b Hab) as D. apply (Rmult_le_reg_r (/ dist2 a b)); [by apply Rinv_0_lt_compat|]. unfold Rdiv in M. lra.
    + intros q Hq. apply hull_clockwise in Hq. destruct (max_outside inf _ C T P E px py q Hq) as [Hz|Hz]; fold m in Hz; [|done]. pose proof (dist2_nonneg (px, py) q). lra.
Qed.
End Convex.

(** Contains for every polygon whose sides are level or rise by 2^-46 or more: the parity of the crossings of the sides with
    the ray along x; the same with any number of lanes. *)
Theorem C49_contains px py : level_or kAbsorb pts → contains P px py = true ↔ odd_many (meets (px, py)) (sides pts).
Proof using Hn Hi. intros Hl. rewrite (contains_odd P (clockwise pts)); [apply odd_clockwise|apply edges_eq|by apply level_clockwise]. Qed.
Theorem C49_contains_lanes l px py : (0 < l)%nat → contains_lanes P l px py = contains P px py.
Proof using. apply contains_lanes_same. Qed.
(** For convex polygons and points off the border the parity is the hull, and Contains agrees with ContainsConvex. *)
Theorem C49_contains_hull px py : convex → level_or kAbsorb pts → ¬ border pts (px, py) →
  (contains P px py = true ↔ hull pts (px, py)) ∧
  (tidy kTolerance pts → kTolerance < inf → contains_convex inf P px py = contains P px py).
Proof using Hn Hi.
  intros Cv Hl Hb. assert (H1 : contains P px py = true ↔ hull pts (px, py)).
  { rewrite (parity_sides P (clockwise pts)) by apply edges_eq. rewrite parity_convex; [apply hull_clockwise|by apply convex_clockwise|by apply level_clockwise|by rewrite border_clockwise]. }
  split; [done|]. intros Td Hinf. apply eq_true_iff_eq. rewrite H1. destruct (C49_contains_convex Cv Td Hinf px py) as [-> _]. unfold inner. tauto.
Qed.

(** SafetySqr for every polygon without sides of length zero: reads stay within the buffers; the answer is the square of the
    distance to the border, or zero when that is below the tolerance; the index is that of a stored edge at that distance (or
    below the tolerance); the template gives the same distance. *)
Lemma sq_dist2 p q : sq_dist p q = dist2 p q * dist2 p q.
Proof. by rewrite dist2_sqr. Qed.
Theorem C49_safety_sqr px py : (0 < kvs)%nat → proper_sides pts → (∃ q, border pts q ∧ dist2 (px, py) q < 10 ^ 15) →
  ∃ r s e, safety_sqr P kvs px py = Some (r, Z.of_nat s) ∧ pg_edges P !! s = Some e ∧
    let a := (e_xj e, e_yj e) in let b := (e_x e, e_y e) in
    (In (a, b) (sides pts) ∨ In (b, a) (sides pts)) ∧
    ((∃ d, kTolerance <= d ∧ r = d * d ∧ distance_to (border pts) (px, py) d ∧ distance_to (on_side a b) (px, py) d) ∨
     (r = 0 ∧ ∃ q, on_side a b q ∧ dist2 (px, py) q < kTolerance)) ∧
    fst (safety_sqr_t P px py) = r.
Proof using Hn Hi.
  intros Hk Hp (q0 & Hq0 & Hd0). pose proof kTolerance_pos as K. pose proof edges_eq as E.
  destruct (C49_init not_nil) as (P' & E' & L & _ & Lt & Cy & _). rewrite Hi in E'. injection E' as <-.
  assert (Ln : length pts ≠ 0%nat) by (pose proof not_nil; by destruct pts).
  set (n := length pts) in *. set (b := ((n + kvs - 1) / kvs)%nat).
  assert (Hb : (n <= b * kvs)%nat).
  { unfold b. pose proof (Nat.div_mod (n + kvs - 1) kvs ltac:(lia)). pose proof (Nat.mod_upper_bound (n + kvs - 1) kvs ltac:(lia)). lia. }
  assert (Hbl : (b * kvs <= length (pg_edges P ++ pg_tail P))%nat) by (rewrite Lt; pose proof (buffer_enough kvs n Hk); unfold b; lia).
  assert (Ht : tol2 <= 10 ^ 30) by (unfold kTolerance; lra).
  assert (Pc : proper_sides (clockwise pts)) by (by apply proper_clockwise).
  assert (Es : ∀ e, In e (pg_edges P) ↔ ∃ a b, In (a, b) (sides (clockwise pts)) ∧ e = mk_edge b a) by (intros e; rewrite E; apply mk_edges_in).
  assert (Sm : ∀ e, In e (pg_edges P) → edge_ssq_t px py e = edge_ssq px py e).
  { intros e He. apply Es in He as (u & v & Hs & ->). apply edge_ssq_same. by apply Pc. }
  (* some edge is closer than the start value *)
  assert (Near : ∃ e, In e (pg_edges P) ∧ edge_ssq px py e < 10 ^ 30).
  { apply border_clockwise in Hq0 as (u & v & Hs & Hq). exists (mk_edge v u). split; [apply Es; eauto|]. destruct (edge_ssq_spec px py u v (Pc _ _ Hs)) as [H1 _].
    specialize (H1 q0 Hq). rewrite sq_dist2 in H1. pose proof (dist2_nonneg (px, py) q0). apply (Rle_lt_trans _ _ _ H1). nra. }
  destruct Near as (en & Hen & Hnear).
  assert (Tk : ∀ e, In e (pg_edges P) → In e (take (b * kvs) (pg_edges P ++ pg_tail P))).
  { intros e He. apply elem_of_list_In, elem_of_list_lookup in He as [i He]. apply elem_of_list_In, elem_of_list_lookup. exists i. apply lookup_lt_Some in He as Hl.
    rewrite lookup_take by lia. by apply lookup_app_l_Some. }
  unfold safety_sqr. rewrite L. fold b.
  destruct (blocks_spec kvs px py b (pg_edges P ++ pg_tail P) 0 (10 ^ 30) (-1) Hbl Ht) as (r & s & Er & [(_ & _ & Ha)|(k & e & E1 & Ek & -> & E3 & E4 & E5)]).
  { exfalso. specialize (Ha en (Tk en Hen)). lra. }
  assert (Ee : pg_edges P !! (k mod n)%nat = Some e) by (by apply Cy).
  assert (Hkn : (k < n)%nat).
  { apply Nat.nle_gt. intros Hge. pose proof (Nat.mod_upper_bound k n Ln). specialize (E4 (k mod n)%nat e ltac:(lia)). specialize (E4 ltac:(by apply lookup_app_l_Some)). lra. }
  rewrite Nat.mod_small in Ee by done. exists r, k, e. rewrite Er. split; [done|]. split; [done|].
  assert (He : In e (pg_edges P)) by (by apply elem_of_list_In, elem_of_list_lookup_2 with k).
  destruct (proj1 (Es e) He) as (u & v & Hs & Eu). assert (Ea : (e_xj e, e_yj e) = u) by (rewrite Eu; by destruct u, v). assert (Ev : (e_x e, e_y e) = v) by (rewrite Eu; by destruct u, v).
  rewrite Ea, Ev. cbv zeta. split; [by apply clockwise_sides|].
  destruct (edge_ssq_spec px py u v (Pc _ _ Hs)) as [D1 (q & Hq & D2)]. rewrite <- Eu in D1, D2.
  assert (Hd : ∀ q', on_side u v q' → dist2 (px, py) q <= dist2 (px, py) q').
  { intros q' Hq'. specialize (D1 q' Hq'). rewrite <- D2, !sq_dist2 in D1. pose proof (dist2_nonneg (px, py) q). pose proof (dist2_nonneg (px, py) q'). by apply sqr_le_le. }
  rewrite sq_dist2 in D2. pose proof (dist2_nonneg (px, py) q) as Hqn. split.
  - destruct E5 as [(F1 & -> & F3)|(F1 & ->)].
    + left. exists (dist2 (px, py) q). split; [apply sqr_le_le; [done|]; lra|]. split; [by rewrite D2|]. split; (split; [|exists q; split; [|done]]).
      * intros q' Hq'. apply border_clockwise in Hq' as (u' & v' & Hs' & Hq'). destruct (edge_ssq_spec px py u' v' (Pc _ _ Hs')) as [D1' _].
        specialize (D1' q' Hq'). rewrite sq_dist2 in D1'. specialize (F3 (mk_edge v' u') ltac:(apply Tk, Es; eauto)). pose proof (dist2_nonneg (px, py) q'). apply sqr_le_le; [done|]. lra.
      * apply border_clockwise. exists u, v. done.
      * done.
      * done.
    + right. split; [done|]. exists q. split; [done|]. apply Rnot_le_lt. intros Hge. nra.
  - unfold safety_sqr_t. pose proof (loop_spec px py (pg_edges P) 0 (10 ^ 30) (-1) Ht) as Lp. destruct (safety_sqr_loop px py (pg_edges P) 0 (10 ^ 30) (-1)) as [r' s'].
    cbn [fst]. destruct Lp as [(_ & _ & Ha)|(k' & e' & G1 & _ & G3 & G4)].
    { exfalso. specialize (Ha en Hen). rewrite Sm in Ha by done. lra. }
    assert (He' : In e' (pg_edges P)) by (by apply elem_of_list_In, elem_of_list_lookup_2 with k'). rewrite Sm in G3, G4 by done.
    destruct E5 as [(F1 & -> & F3)|(F1 & ->)]; destruct G4 as [(G4 & -> & G5)|(G4 & ->)].
    + pose proof (F3 e' (Tk e' He')). specialize (G5 e He). rewrite Sm in G5 by done. lra.
    + pose proof (F3 e' (Tk e' He')). lra.
    + specialize (G5 e He). rewrite Sm in G5 by done. lra.
    + done.
Qed.
End Polygons.

(** OnSegment: every point of the side is accepted; accepted points are near the line of the side, within 1e-9 over its length. *)
Theorem C49_on_segment a b px py : a ≠ b →
  (on_side a b (px, py) → on_segment (mk_edge b a) px py = true) ∧
  (on_segment (mk_edge b a) px py = true → Rabs (cross2 a b (px, py)) / dist2 a b < / 10 ^ 9 / dist2 a b ∧
     ∃ t, - kTolerance <= t * (dist2 a b * dist2 a b) <= dist2 a b * dist2 a b + kTolerance ∧
       dist2 (px, py) (way a b t) = Rabs (cross2 a b (px, py)) / dist2 a b).
Proof.
  intros Hab. pose proof (dist2_pos a b Hab) as D. pose proof (dist2_sqr a b) as L. pose proof kTolerance_pos as K.
  set (l := dist2 a b) in *. destruct a as [ax ay], b as [bx by_]. unfold on_segment, mk_edge. cbn [e_x e_y e_xj e_yj e_lsq fst snd] in *.
  set (cr := (py - ay) * (bx - ax) - (px - ax) * (by_ - ay)). set (dt := (px - ax) * (bx - ax) + (py - ay) * (by_ - ay)).
  assert (Ec : cross2 (ax, ay) (bx, by_) (px, py) = cr) by (unfold cross2, cr; cbn; ring). rewrite Ec.
  replace ((bx - ax) * (bx - ax) + (by_ - ay) * (by_ - ay)) with (l * l) by lra. assert (Hl : 0 < l * l) by nra. split.
  - intros (t & Ht & Et). injection Et as Ex Ey. cbn in Ex, Ey. assert (cr = 0) as -> by (unfold cr; rewrite Ex, Ey; ring). rewrite Rabs_R0.
    destruct (rltb_spec 0 (/ 1000000000)); [|lra]. cbn [negb]. assert (Edt : dt = t * (l * l)) by (unfold dt; rewrite Ex, Ey, L; ring). rewrite Edt.
    apply andb_true_iff. split; [destruct (rgeb_spec (t * (l * l)) (- kTolerance)); [done|exfalso; nra]|destruct (rleb_spec (t * (l * l)) (kTolerance + l * l)); [done|exfalso; nra]].
  - destruct (rltb_spec (Rabs cr) (/ 1000000000)) as [Hc|Hc]; cbn [negb]; [|done]. rewrite andb_true_iff. intros [H1 H2].
    destruct (rgeb_spec dt (- kTolerance)) as [H1'|]; [|done]. destruct (rleb_spec dt (kTolerance + l * l)) as [H2'|]; [|done]. split.
    + apply Rmult_lt_compat_r; [by apply Rinv_0_lt_compat|]. lra.
    + exists (dt / (l * l)). replace (dt / (l * l) * (l * l)) with dt by (field; lra). split; [lra|].
      assert (S : dist2 (px, py) (way (ax, ay) (bx, by_) (dt / (l * l))) * dist2 (px, py) (way (ax, ay) (bx, by_) (dt / (l * l))) = (Rabs cr / l) * (Rabs cr / l)).
      { rewrite dist2_sqr. unfold way. cbn [fst snd]. replace (Rabs cr / l * (Rabs cr / l)) with (Rabs cr * Rabs cr / (l * l)) by (field; lra). rewrite <- Rabs_mult, Rabs_pos_eq by apply Rle_0_sqr.
        apply (Rmult_eq_reg_r (l * l)); [|lra]. replace (cr * cr / (l * l) * (l * l)) with (cr * cr) by (field; lra).
        set (t := dt / (l * l)). assert (Et : t * (l * l) = dt) by (unfold t; field; lra).
        transitivity (((px - ax) * (px - ax) + (py - ay) * (py - ay)) * (l * l) - 2 * (t * (l * l)) * dt + (t * (l * l)) * t * (l * l)); [rewrite L; unfold dt; ring|].
        rewrite Et. replace (dt * t * (l * l)) with (dt * (t * (l * l))) by ring. rewrite Et, L. unfold cr, dt. ring. }
      assert (N1 := dist2_nonneg (px, py) (way (ax, ay) (bx, by_) (dt / (l * l)))). assert (N2 : 0 <= Rabs cr / l) by (apply Rmult_le_pos; [apply Rabs_pos|left; by apply Rinv_0_lt_compat]).
      apply Rle_antisym; apply sqr_le_le; lra.
Qed.

Print Assumptions C49_init.
Print Assumptions C49_extent.
Print Assumptions C49_contains_convex.
Print Assumptions C49_inside_convex.
Print Assumptions C49_safety_convex.
Print Assumptions C49_contains.
Print Assumptions C49_contains_lanes.
Print Assumptions C49_contains_hull.
Print Assumptions C49_safety_sqr.
Print Assumptions C49_on_segment.
