(** C83: parallelepipeds. *)
From Coq Require Import Reals Lra Lia Bool ZArith Psatz.
From stdpp Require Import base list option numbers tactics.
From Verif Require Import Real3 AABBModel AABBSpec AABBProofs BoxModel BoxSpec BoxProofs PlanesModel PlanesSpec PlanesProofs TrapModel TrapSpec ParaModel ParaSpec ParaProofs.
Import stdpp.list.
Local Open Scope R_scope.

Lemma facet_dec (a b : v3 * R) : a = b ∨ a ≠ b.
Proof.
  destruct a as [[a1 a2 a3] a4], b as [[b1 b2 b3] b4].
  destruct (Req_dec a1 b1), (Req_dec a2 b2), (Req_dec a3 b3), (Req_dec a4 b4); try (left; congruence); right; congruence.
Qed.
(** For every parallelepiped made by the constructor and changed by any number of setters. *)
Section Para.
Variable inf : R.
Variable s : para.
Hypothesis Hr : reachable s.
Let ta := tan (pp_alpha s). Let tc := tan (pp_theta s) * cos (pp_phi s). Let ts := tan (pp_theta s) * sin (pp_phi s).
Let dx := vx (pp_dim s). Let dy := vy (pp_dim s). Let dz := vz (pp_dim s).
Let S := oblique ta tc ts dx dy dz.
Let C := oblique_core ta tc ts dx dy dz.
Let F := facets ta tc ts dx dy dz.
Let G : good s. Proof. apply good_reachable, Hr. Qed.
Lemma ta_t : pp_ta s = ta. Proof using Hr. apply (g_ta _ G). Qed.
Lemma tc_t : pp_tc s = tc. Proof using Hr. apply (g_tc _ G). Qed.
Lemma ts_t : pp_ts s = ts. Proof using Hr. apply (g_ts _ G). Qed.
Lemma S_top p : S p ↔ ptop s p <= 0.
Proof using Hr. rewrite (top_closed s G), <- (oblique_closed s). unfold S, ta, tc, ts. rewrite <- (g_ta _ G), <- (g_tc _ G), <- (g_ts _ G). done. Qed.
Lemma C_top p : C p ↔ ptop s p < 0.
Proof using Hr. rewrite (top_interior s G), <- (core_interior s). unfold C, ta, tc, ts. rewrite <- (g_ta _ G), <- (g_tc _ G), <- (g_ts _ G). done. Qed.
Lemma F_t : F = halves (pls s).
Proof using Hr. rewrite (pls_facets s G). unfold F, ta, tc, ts. rewrite <- (g_ta _ G), <- (g_tc _ G), <- (g_ts _ G). done. Qed.
Lemma S_cut p : S p ↔ cut (halves (pls s)) p.
Proof using Hr. rewrite S_top, (pls_facets s G). apply (top_cut s G). Qed.
Lemma unit_t : unit_normals (halves (pls s)).
Proof using Hr. rewrite (pls_facets s G). apply unit_facets, G. Qed.
Lemma short_t : short_normals (halves (pls s)).
Proof using Hr. rewrite (pls_facets s G). apply short_facets, G. Qed.
Lemma top_heights p : (∀ n k, In (n, k) F → height n k p <= ptop s p) ∧ ∃ n k, In (n, k) F ∧ height n k p = ptop s p.
Proof using Hr.
  rewrite F_t. destruct (top_spec s G p) as (A & [n k] & Hi & B). split.
  - intros m j Hm. apply in_halves in Hm. specialize (A _ Hm). rewrite <- height_dist in A. exact A.
  - exists n, k. split; [by apply in_halves|]. rewrite <- height_dist in B. exact B.
Qed.
Lemma nearly_t d : nearly ta tc ts kTiny d (bent s d).
Proof using Hr. unfold ta, tc, ts. rewrite <- (g_ta _ G), <- (g_tc _ G), <- (g_ts _ G). apply bent_nearly. Qed.
Lemma ray_S p d t : S (along p (bent s d) t) ↔ dist_in (pp_dim s) (transform s p) (transform s d) <= t <= dist_out (pp_dim s) (transform s p) (transform s d).
Proof using Hr. rewrite <- (bent_closed s). unfold S, ta, tc, ts. rewrite <- (g_ta _ G), <- (g_tc _ G), <- (g_ts _ G). done. Qed.
Lemma ray_C p d t : C (along p (bent s d) t) ↔ dist_in (pp_dim s) (transform s p) (transform s d) < t < dist_out (pp_dim s) (transform s p) (transform s d).
Proof using Hr. rewrite <- (bent_core s). unfold C, ta, tc, ts. rewrite <- (g_ta _ G), <- (g_tc _ G), <- (g_ts _ G). done. Qed.

(** The solid is the part common to six half spaces. *)
Theorem C83_solid p : (S p ↔ cut F p) ∧ (C p ↔ cut_open F p) ∧ unit_normals F.
Proof using Hr.
  rewrite S_top, C_top, F_t, (pls_facets s G). split; [apply (top_cut s G)|]. split; [apply (top_cut_open s G)|]. apply unit_facets, G.
Qed.
(** Contains: the solid without its surface. *)
Theorem C83_contains p : para_contains s p = true ↔ C p.
Proof using Hr. rewrite C_top. unfold para_contains. apply rltb_true. Qed.
(** Inside: half a tolerance of room or more, half a tolerance away or more, or neither. *)
Theorem C83_inside p : match para_inside s p with
  | kInside => deep_in S p kHalfTolerance
  | kOutside => clear_of S p kHalfTolerance
  | kSurface => (S p → ∃ e, e < kHalfTolerance ∧ escapes S p e) ∧ ∀ n k, In (n, k) F → height n k p < kHalfTolerance
  end.
Proof using Hr.
  pose proof kHalfTolerance_pos as Hh. unfold para_inside. cbv zeta. fold (ptop s p). destruct (top_spec s G p) as (A & pl & Hi & B).
  destruct (rltb_spec (Rabs (ptop s p)) kHalfTolerance) as [L|L].
  - apply abs_lt in L. split.
    + intros Hp. apply S_top in Hp. exists (- ptop s p). split; [lra|]. intros e He. destruct (escapes_of_dist (pls s) p (- ptop s p) pl unit_t Hi) with (e := e) as (q & Hq & Hn); [lra|lra|done|].
      exists q. split; [done|]. by rewrite S_cut.
    + intros n k Hn. destruct (top_heights p) as [T _]. specialize (T _ _ Hn). lra.
  - assert (L' : ~ (- kHalfTolerance < ptop s p < kHalfTolerance)) by (intros K; apply abs_lt in K; lra).
    destruct (rltb_spec (ptop s p) 0) as [K|K].
    + intros q Hq. apply S_cut. revert q Hq. apply (deep_of_dist _ _ _ short_t). intros q Hq. specialize (A _ Hq). lra.
    + intros q Hq. apply S_cut in Hq. revert q Hq. apply (clear_of_dist _ _ _ pl short_t Hi). lra.
Qed.
(** SafetyToOut: the ball of that radius is in the solid, no larger one is; zero within half a tolerance of the surface. *)
Theorem C83_safety_to_out p : let r := para_safety_out s p in
  (para_inside s p = kInside → kHalfTolerance <= r ∧ deep_in S p r ∧ escapes S p r) ∧ (para_inside s p = kSurface → r = 0) ∧
  (para_inside s p = kOutside → r <= - kHalfTolerance).
Proof using Hr.
  pose proof kHalfTolerance_pos as Hh. cbv zeta. unfold para_safety_out, para_inside. cbv zeta. fold (ptop s p). rewrite Rabs_Ropp. destruct (top_spec s G p) as (A & pl & Hi & B).
  destruct (rltb_spec (Rabs (ptop s p)) kHalfTolerance) as [L|L]; [done|].
  assert (L' : ~ (- kHalfTolerance < ptop s p < kHalfTolerance)) by (intros K; apply abs_lt in K; lra).
  destruct (rltb_spec (ptop s p) 0) as [K|K]; (split; [intros|split; [done|intros]]); try done; [|lra]. split; [lra|]. split.
  - intros q Hq. apply S_cut. revert q Hq. apply (deep_of_dist _ _ _ short_t). intros q Hq. specialize (A _ Hq). lra.
  - intros e He. destruct (escapes_of_dist (pls s) p (- ptop s p) pl unit_t Hi) with (e := e) as (q & Hq & Hn); [lra|lra|done|].
    exists q. split; [done|]. by rewrite S_cut.
Qed.
(** SafetyToIn: the solid is at least that far away; minus SafetyToOut. *)
Theorem C83_safety_to_in p : let r := para_safety_in s p in
  clear_of S p r ∧ r = - para_safety_out s p ∧ (para_inside s p = kOutside ↔ kHalfTolerance <= r).
Proof using Hr.
  pose proof kHalfTolerance_pos as Hh. cbv zeta. unfold para_safety_in, para_safety_out, para_inside. cbv zeta. fold (ptop s p). rewrite Rabs_Ropp. destruct (top_spec s G p) as (A & pl & Hi & B).
  destruct (rltb_spec (Rabs (ptop s p)) kHalfTolerance) as [L|L].
  - split; [intros q _; apply vdist_nonneg|]. split; [lra|]. split; [done|]. intros; lra.
  - split; [|split; [lra|]].
    + intros q Hq. apply S_cut in Hq. revert q Hq. apply (clear_of_dist _ _ _ pl short_t Hi). lra.
    + assert (L' : ~ (- kHalfTolerance < ptop s p < kHalfTolerance)) by (intros K; apply abs_lt in K; lra). destruct (rltb_spec (ptop s p) 0) as [K|K]; split; intros; try done; lra.
Qed.
(** DistanceToOut from points of the solid is where the ray of a direction off by at most kTiny leaves it. *)
Theorem C83_to_out p d : S p → ∃ d', nearly ta tc ts kTiny d d' ∧ let r := para_to_out s p d in
  0 <= r ∧ (∀ t, 0 <= t <= r → S (along p d' t)) ∧ (∀ t, r < t → ¬ S (along p d' t)) ∧ (C p → 0 < r ∧ ∀ t, 0 <= t < r → C (along p d' t)).
Proof using Hr.
  intros Hp. exists (bent s d). split; [apply nearly_t|]. cbv zeta. pose proof kHalfTolerance_pos as Hh. rewrite para_out_eq. pose proof (proj1 (S_top p) Hp) as Ht.
  destruct (rgtb_spec (ptop s p) kHalfTolerance); [lra|]. pose proof Hp as H0. rewrite <- (along_0 p (bent s d)) in H0. apply ray_S in H0.
  split; [lra|]. split; [intros t Hi; apply ray_S; lra|]. split; [intros t Hi; rewrite ray_S; lra|]. intros HC. rewrite <- (along_0 p (bent s d)) in HC. apply ray_C in HC.
  split; [lra|]. intros t Hi. apply ray_C. lra.
Qed.
(** Points that Inside calls outside get -1, but for those exactly half a tolerance away. *)
Theorem C83_to_out_outside p d : para_inside s p = kOutside → para_to_out s p d = -1 ∨ para_safety_in s p = kHalfTolerance.
Proof using Hr.
  rewrite para_out_eq. unfold para_inside, para_safety_in. cbv zeta. fold (ptop s p). pose proof kHalfTolerance_pos. destruct (rltb_spec (Rabs (ptop s p)) kHalfTolerance) as [L|L]; [done|].
  assert (L' : ~ (- kHalfTolerance < ptop s p < kHalfTolerance)) by (intros K; apply abs_lt in K; lra).
  destruct (rltb_spec (ptop s p) 0); [done|]. intros _. destruct (rgtb_spec (ptop s p) kHalfTolerance); [by left|right; lra].
Qed.
(** DistanceToIn, when not infinite, is where the ray of a direction off by at most kTiny enters, and what follows for
    more than half a tolerance is inside; positive exactly from outside. *)
Theorem C83_to_in p d : let r := para_to_in inf s p d in r ≠ inf → ∃ d', nearly ta tc ts kTiny d d' ∧
  (∀ t, t < r → ¬ S (along p d' t)) ∧ S (along p d' r) ∧ (∃ e, r + kHalfTolerance < e ∧ ∀ t, r < t < e → C (along p d' t)) ∧ (0 < r ↔ ¬ S p).
Proof using Hr.
  cbv zeta. intros Hn. exists (bent s d). split; [apply nearly_t|]. revert Hn. rewrite para_in_eq. cbv zeta. set (i := dist_in _ _ _). set (o := dist_out _ _ _). pose proof kHalfTolerance_pos as Hh.
  destruct (leaving s p d) eqn:El; cbn [negb andb]; [done|]. destruct (rgtb_spec o (i + kHalfTolerance)) as [K|K]; [|done]. intros _.
  split; [intros t Ht; rewrite ray_S; fold i o; lra|]. split; [rewrite ray_S; fold i o; lra|]. split; [exists o; split; [lra|]; intros t Ht; rewrite ray_C; fold i o; lra|].
  split.
  - intros Hi Hp. rewrite <- (along_0 p (bent s d)) in Hp. apply ray_S in Hp. fold i o in Hp. lra.
  - intros Hp. apply (not_leaving_in s G); [done|]. rewrite <- (oblique_closed s). unfold S, ta, tc, ts in Hp. rewrite <- (g_ta _ G), <- (g_tc _ G), <- (g_ts _ G) in Hp. done.
Qed.
(** When it is infinite, nothing ahead is deeper than half a tolerance, or the ray of a direction off by at most kTiny is in
    the solid for half a tolerance at most, or begins there only at infinity. *)
Theorem C83_to_in_infinite p d : para_to_in inf s p d = inf →
  (∀ t e, 0 <= t → kHalfTolerance < e → ¬ deep_in S (along p d t) e) ∨
  ∃ d', nearly ta tc ts kTiny d d' ∧ ((∀ t u, S (along p d' t) → S (along p d' u) → u - t <= kHalfTolerance) ∨ ∀ t, t < inf → ¬ S (along p d' t)).
Proof using Hr.
  rewrite para_in_eq. cbv zeta. set (i := dist_in _ _ _). set (o := dist_out _ _ _). pose proof kHalfTolerance_pos as Hh.
  destruct (leaving s p d) eqn:El; cbn [negb andb].
  - intros _. left. intros t e Ht He Hd. pose proof (leaving_top s G p d t El Ht) as Hl. destruct (top_spec s G (along p d t)) as (A & pl & Hi & B).
    set (q := along p d t) in *. destruct (Rle_dec (ptop s q) 0) as [Hq|Hq].
    + destruct (escapes_of_dist (pls s) q (- ptop s q) pl unit_t Hi) with (e := e) as (w & Hw & Hn); [lra|lra|lra|].
      apply Hn, S_cut, Hd. lra.
    + apply Hq, S_top, Hd. rewrite vdist_refl. lra.
  - destruct (rgtb_spec o (i + kHalfTolerance)) as [K|K]; intros E; right; exists (bent s d); (split; [apply nearly_t|]).
    + right. intros t Ht Hs. apply ray_S in Hs. fold i o in Hs. lra.
    + left. intros t u H1 H2. apply ray_S in H1, H2. fold i o in H1, H2. lra.
Qed.

(** Normals. *)
Lemma facets_t : F = [(pp_nx s, - (pp_ctx s * dx)); (vneg (pp_nx s), - (pp_ctx s * dx)); (pp_ny s, - (pp_cty s * dy)); (vneg (pp_ny s), - (pp_cty s * dy));
  (V3 0 0 1, - dz); (V3 0 0 (-1), - dz)].
Proof using Hr. unfold F, ta, tc, ts. rewrite <- (g_ta _ G), <- (g_tc _ G), <- (g_ts _ G). apply (facets_eq s G). Qed.
Lemma signed_x p : let n := vscale (rsign (vx (transform s p))) (pp_nx s) in let k := - (pp_ctx s * dx) in
  In (n, k) F ∧ height n k p = vx (safety_vector s (transform s p)).
Proof using Hr.
  cbv zeta. rewrite facets_t, (sv_x s G). fold dx. rewrite (height_x s G), (height_xn s G). fold dx. pose proof (ctx_pos s G). unfold rsign. destruct (rltb_spec (vx (transform s p)) 0).
  - split; [right; left; done|]. change (vscale (-1) (pp_nx s)) with (vneg (pp_nx s)). fold dx. unfold dx. rewrite (height_xn s G). symmetry. apply Rmax_right. fold dx. nra.
  - assert (E : vscale 1 (pp_nx s) = pp_nx s) by (apply v3_eq; cbn; ring). rewrite E. split; [left; done|]. unfold dx. rewrite (height_x s G). symmetry. apply Rmax_left. fold dx. nra.
Qed.
Lemma signed_y p : let n := vscale (rsign (vy (transform s p))) (pp_ny s) in let k := - (pp_cty s * dy) in
  In (n, k) F ∧ height n k p = vy (safety_vector s (transform s p)).
Proof using Hr.
  cbv zeta. rewrite facets_t, (sv_y s G). fold dy. rewrite (height_y s G), (height_yn s G). fold dy. pose proof (cty_pos s G). unfold rsign. destruct (rltb_spec (vy (transform s p)) 0).
  - split; [do 3 right; left; done|]. change (vscale (-1) (pp_ny s)) with (vneg (pp_ny s)). unfold dy. rewrite (height_yn s G). symmetry. apply Rmax_right. fold dy. nra.
  - assert (E : vscale 1 (pp_ny s) = pp_ny s) by (apply v3_eq; cbn; ring). rewrite E. split; [do 2 right; left; done|]. unfold dy. rewrite (height_y s G). symmetry. apply Rmax_left. fold dy. nra.
Qed.
Lemma signed_z p : let n := V3 0 0 (rsign (vz (transform s p))) in let k := - dz in
  In (n, k) F ∧ height n k p = vz (safety_vector s (transform s p)).
Proof using Hr.
  cbv zeta. rewrite facets_t, (sv_z s). fold dz. rewrite (height_z s), (height_zn s). fold dz. unfold rsign. destruct (rltb_spec (vz (transform s p)) 0).
  - split; [do 5 right; left; done|]. unfold dz. rewrite (height_zn s). symmetry. apply Rmax_right. fold dz. lra.
  - split; [do 4 right; left; done|]. unfold dz. rewrite (height_z s). symmetry. apply Rmax_left. fold dz. lra.
Qed.
Let near (x : R) : bool := rleb (Rabs x) kHalfTolerance.
Lemma normal_sum p : let q := transform s p in let sv := safety_vector s q in
  let sum := vadd (vadd (if near (vz sv) then V3 0 0 (rsign (vz q)) else vzero) (if near (vy sv) then vscale (rsign (vy q)) (pp_ny s) else vzero))
                  (if near (vx sv) then vscale (rsign (vx q)) (pp_nx s) else vzero) in
  para_normal s p = if near (vx sv) || near (vy sv) || near (vz sv) then (if rgtb (vdot sum sum) 1 then unitize sum else sum, true)
    else (if reqb (vz sv) (ptop s p) then V3 0 0 (rsign (vz q)) else if reqb (vy sv) (ptop s p) then vscale (rsign (vy q)) (pp_ny s) else vscale (rsign (vx q)) (pp_nx s), false).
Proof using Hr.
  cbv zeta. unfold para_normal. cbv zeta. unfold vsign. cbn [vx vy vz]. fold (ptop s p).
  set (q := transform s p). set (sv := safety_vector s q). fold (near (vx sv)) (near (vy sv)) (near (vz sv)).
  assert (Z : ∀ v, vadd v vzero = v) by (intros v; apply v3_eq; cbn; ring).
  match goal with |- (if rgtb (vdot ?v ?v) 0 then _ else _) = _ => set (sum := v) end.
  assert (Es : sum = vadd (vadd (if near (vz sv) then V3 0 0 (rsign (vz q)) else vzero) (if near (vy sv) then vscale (rsign (vy q)) (pp_ny s) else vzero))
                  (if near (vx sv) then vscale (rsign (vx q)) (pp_nx s) else vzero)).
  { unfold sum. destruct (near (vx sv)), (near (vy sv)); rewrite ?Z; done. }
  rewrite <- Es. 
  assert (Hx : vdot sum edge_x = if near (vx sv) then rsign (vx q) * pp_ctx s else 0).
  { rewrite Es. rewrite (ctx_eq s G), (g_nx _ G), (g_ny _ G). pose proof (lx_pos s). pose proof (ly_pos s). unfold unitize. fold (lx s) (ly s). unfold vdot.
    destruct (near (vx sv)), (near (vy sv)), (near (vz sv)); cbn; field; lra. }
  assert (Hy : near (vx sv) = false → vdot sum (edge_y (pp_ta s)) = if near (vy sv) then rsign (vy q) * pp_cty s else 0).
  { intros E. rewrite Es, E. rewrite (cty_eq s G), (g_ny _ G). pose proof (ly_pos s). unfold unitize. fold (ly s). unfold vdot.
    destruct (near (vy sv)), (near (vz sv)); cbn; field; lra. }
  assert (Sg : ∀ x c, 0 < c → rsign x * c ≠ 0) by (intros x c Hc; destruct (sign_cases x) as [-> | ->]; lra).
  assert (Nz : ∀ v, vdot sum v ≠ 0 → 0 < vdot sum sum).
  { intros v Hv. pose proof (vdot_self_nonneg sum). destruct (Req_dec (vdot sum sum) 0) as [E|]; [|lra]. exfalso. apply Hv.
    unfold vdot in E. pose proof (Rle_0_sqr (vx sum)) as A1. pose proof (Rle_0_sqr (vy sum)) as A2. pose proof (Rle_0_sqr (vz sum)) as A3. unfold Rsqr in *.
    assert (vx sum = 0) as E1 by nra. assert (vy sum = 0) as E2 by nra. assert (vz sum = 0) as E3 by nra. unfold vdot. rewrite E1, E2, E3. ring. }
  destruct (near (vx sv)) eqn:Ex; cbn [orb].
  - assert (0 < vdot sum sum) by (apply (Nz edge_x); rewrite Hx; apply Sg, (ctx_pos s G)). destruct (rgtb_spec (vdot sum sum) 0); [done|lra].
  - specialize (Hy eq_refl). destruct (near (vy sv)) eqn:Ey; cbn [orb].
    + assert (0 < vdot sum sum) by (apply (Nz (edge_y (pp_ta s))); rewrite Hy; apply Sg, (cty_pos s G)). destruct (rgtb_spec (vdot sum sum) 0); [done|lra].
    + rewrite Es, !Z. destruct (near (vz sv)) eqn:Ez.
      * match goal with |- context [rgtb ?x 0] => assert (E : x = 1) end; [unfold vdot; cbn [vx vy vz]; destruct (sign_cases (vz q)) as [-> | ->]; ring|]. rewrite E.
        destruct (rgtb_spec 1 0); [done|lra].
      * match goal with |- context [rgtb ?x 0] => assert (E : x = 0) end; [unfold vdot; cbn; ring|]. rewrite E. destruct (rgtb_spec 0 0); [lra|].
        destruct (reqb_spec 0 0); [|done]. rewrite (g_nz _ G). assert (E3 : vscale (rsign (vz q)) (V3 0 0 1) = V3 0 0 (rsign (vz q))) by (apply v3_eq; cbn; ring). rewrite E3. done.
Qed.
Lemma comps : vx (pp_nx s) = pp_ctx s ∧ vx (pp_ny s) = 0 ∧ vy (pp_ny s) = pp_cty s.
Proof using Hr.
  rewrite (ctx_eq s G), (cty_eq s G), (g_nx _ G), (g_ny _ G). pose proof (lx_pos s). pose proof (ly_pos s). unfold unitize. fold (lx s) (ly s). cbn. repeat split; field; lra.
Qed.
(** Normal: a point at one face, deeper than half a tolerance under all others. *)
Theorem C83_normal p n k : In (n, k) F → Rabs (height n k p) <= kHalfTolerance → (∀ m j, In (m, j) F → (m, j) ≠ (n, k) → height m j p < - kHalfTolerance) →
  para_normal s p = (n, true).
Proof using Hr.
  intros Hi Hh Ho. pose proof kHalfTolerance_pos as Hp. pose proof (abs_le_inv _ _ Hh) as Hb. rewrite normal_sum. cbv zeta.
  destruct (signed_x p) as [Ix Ex]. destruct (signed_y p) as [Iy Ey]. destruct (signed_z p) as [Iz Ez]. cbv zeta in Ix, Ex, Iy, Ey, Iz, Ez.
  assert (W : near (height n k p) = true) by (by apply rleb_true).
  assert (N : ∀ m j, In (m, j) F → (m, j) ≠ (n, k) → near (height m j p) = false).
  { intros m j Hm Hne. specialize (Ho _ _ Hm Hne). unfold near. destruct (rleb_spec (Rabs (height m j p)) kHalfTolerance) as [E|]; [|done]. apply abs_le_inv in E. lra. }
  assert (Un : vdot n n = 1) by (apply (proj2 (proj2 (C83_solid p)) n k Hi)).
  assert (Z : ∀ v, vadd vzero v = v) by (intros v; apply v3_eq; cbn; ring). assert (Z' : ∀ v, vadd v vzero = v) by (intros v; apply v3_eq; cbn; ring).
  destruct comps as (Cx & Cy0 & Cy). pose proof (ctx_pos s G) as Px. pose proof (cty_pos s G) as Py.
  assert (Fin : ∀ v, v = n → (if rgtb (vdot v v) 1 then unitize v else v, true) = (n, true)) by (intros v ->; rewrite Un; destruct (rgtb_spec 1 1); [lra|done]).
  assert (S1 : ∀ x, rsign x = 1 ∨ rsign x = -1) by apply sign_cases.
  pose proof Hi as Hc. rewrite facets_t in Hc.
  assert (Kx : vx n ≠ 0 → (near (vy (safety_vector s (transform s p))) = false) ∧ near (vz (safety_vector s (transform s p))) = false).
  { intros Hn. rewrite <- Ey, <- Ez. split; (apply N; [done|]); intros Q; apply (f_equal (λ v, vx (fst v))) in Q; cbn in Q; try (rewrite Cy0 in Q); lra. }
  assert (Ky : vx n = 0 → vy n ≠ 0 → (near (vx (safety_vector s (transform s p))) = false) ∧ near (vz (safety_vector s (transform s p))) = false).
  { intros H0 Hn. rewrite <- Ex, <- Ez. split; (apply N; [done|]); intros Q.
    - apply (f_equal (λ v, vx (fst v))) in Q. cbn in Q. rewrite Cx in Q. destruct (S1 (vx (transform s p))) as [E|E]; unfold transform in E; cbn in E; rewrite E in Q; lra.
    - apply (f_equal (λ v, vy (fst v))) in Q. cbn in Q. lra. }
  assert (Kz : vx n = 0 → vy n = 0 → (near (vx (safety_vector s (transform s p))) = false) ∧ near (vy (safety_vector s (transform s p))) = false).
  { intros H0 Hn. rewrite <- Ex, <- Ey. split; (apply N; [done|]); intros Q.
    - apply (f_equal (λ v, vx (fst v))) in Q. cbn in Q. rewrite Cx in Q. destruct (S1 (vx (transform s p))) as [E|E]; unfold transform in E; cbn in E; rewrite E in Q; lra.
    - apply (f_equal (λ v, vy (fst v))) in Q. cbn in Q. rewrite Cy in Q. destruct (S1 (vy (transform s p))) as [E|E]; unfold transform in E; cbn in E; rewrite E in Q; lra. }
  (* the signed facet of the axis of [n] is [n]: else both are near *)
  assert (M : ∀ m j, In (m, j) F → height n k p <= height m j p → (m, j) = (n, k)).
  { intros m j Hm Hl. destruct (facet_dec (m, j) (n, k)) as [|Q]; [done|]. specialize (Ho _ _ Hm Q). lra. }
  assert (Vx : (n, k) = (pp_nx s, - (pp_ctx s * dx)) ∨ (n, k) = (vneg (pp_nx s), - (pp_ctx s * dx)) → vscale (rsign (vx (transform s p))) (pp_nx s) = n ∧ near (vx (safety_vector s (transform s p))) = true).
  { intros Hor. assert (Q : (vscale (rsign (vx (transform s p))) (pp_nx s), - (pp_ctx s * dx)) = (n, k)).
    { apply M; [done|]. rewrite Ex, (sv_x s G). fold dx. destruct Hor as [[= -> ->]|[= -> ->]]; [apply Rmax_l|apply Rmax_r]. }
    rewrite <- Ex. injection Q as <- <-. done. }
  assert (Vy : (n, k) = (pp_ny s, - (pp_cty s * dy)) ∨ (n, k) = (vneg (pp_ny s), - (pp_cty s * dy)) → vscale (rsign (vy (transform s p))) (pp_ny s) = n ∧ near (vy (safety_vector s (transform s p))) = true).
  { intros Hor. assert (Q : (vscale (rsign (vy (transform s p))) (pp_ny s), - (pp_cty s * dy)) = (n, k)).
    { apply M; [done|]. rewrite Ey, (sv_y s G). fold dy. destruct Hor as [[= -> ->]|[= -> ->]]; [apply Rmax_l|apply Rmax_r]. }
    rewrite <- Ey. injection Q as <- <-. done. }
  assert (Vz : (n, k) = (V3 0 0 1, - dz) ∨ (n, k) = (V3 0 0 (-1), - dz) → V3 0 0 (rsign (vz (transform s p))) = n ∧ near (vz (safety_vector s (transform s p))) = true).
  { intros Hor. assert (Q : (V3 0 0 (rsign (vz (transform s p))), - dz) = (n, k)).
    { apply M; [done|]. rewrite Ez, (sv_z s). fold dz. destruct Hor as [[= -> ->]|[= -> ->]]; [apply Rmax_l|apply Rmax_r]. }
    rewrite <- Ez. injection Q as <- <-. done. }
  assert (Hc' : ((n, k) = (pp_nx s, - (pp_ctx s * dx)) ∨ (n, k) = (vneg (pp_nx s), - (pp_ctx s * dx))) ∨ ((n, k) = (pp_ny s, - (pp_cty s * dy)) ∨ (n, k) = (vneg (pp_ny s), - (pp_cty s * dy))) ∨
     ((n, k) = (V3 0 0 1, - dz) ∨ (n, k) = (V3 0 0 (-1), - dz))).
  { destruct Hc as [E|[E|[E|[E|[E|[E|[]]]]]]]; rewrite <- E; auto. }
  destruct Hc' as [H|[H|H]].
  - destruct (Vx H) as [E1 E2]. assert (vx n ≠ 0) as Hn by (destruct H as [[= -> _]|[= -> _]]; cbn; rewrite Cx; lra). destruct (Kx Hn) as [E3 E4].
    rewrite E1, E2, E3, E4. cbn [orb]. apply Fin. rewrite !Z. done.
  - destruct (Vy H) as [E1 E2]. assert (vx n = 0 ∧ vy n ≠ 0) as [Hn Hn'] by (destruct H as [[= -> _]|[= -> _]]; cbn; rewrite Cy0, Cy; split; lra). destruct (Ky Hn Hn') as [E3 E4].
    rewrite E1, E2, E3, E4. cbn [orb]. apply Fin. rewrite Z, Z'. done.
  - destruct (Vz H) as [E1 E2]. assert (vx n = 0 ∧ vy n = 0) as [Hn Hn'] by (destruct H as [[= -> _]|[= -> _]]; cbn; split; lra). destruct (Kz Hn Hn') as [E3 E4].
    rewrite E1, E2, E3, E4. cbn [orb]. apply Fin. rewrite !Z'. done.
Qed.
(** Valid: at points Inside calls surface; and only near the plane of some face.  Then the solid is nowhere more than one
    and a half tolerances above the normal's plane, and the normal not longer than one and not zero. *)
Theorem C83_normal_valid p : let '(n, valid) := para_normal s p in
  (para_inside s p = kSurface → valid = true) ∧
  (valid = true → (∃ m j, In (m, j) F ∧ Rabs (height m j p) <= kHalfTolerance) ∧ 0 < vdot n n <= 1 ∧ ∀ q, S q → vdot n (vsub q p) <= 3 * kHalfTolerance).
Proof using Hr.
  pose proof kHalfTolerance_pos as Hp. rewrite normal_sum. cbv zeta.
  destruct (signed_x p) as [Ix Ex]. destruct (signed_y p) as [Iy Ey]. destruct (signed_z p) as [Iz Ez]. cbv zeta in Ix, Ex, Iy, Ey, Iz, Ez.
  set (sv := safety_vector s (transform s p)) in *.
  set (nx := vscale (rsign (vx (transform s p))) (pp_nx s)) in *. set (ny := vscale (rsign (vy (transform s p))) (pp_ny s)) in *. set (nz := V3 0 0 (rsign (vz (transform s p)))) in *.
  assert (B : near (vx sv) || near (vy sv) || near (vz sv) = true → ∃ m j, In (m, j) F ∧ Rabs (height m j p) <= kHalfTolerance).
  { rewrite !orb_true_iff. unfold near. rewrite !rleb_true. intros [[H|H]|H]; [rewrite <- Ex in H|rewrite <- Ey in H|rewrite <- Ez in H]; eauto. }
  assert (Q : ∀ m j, In (m, j) F → near (height m j p) = true → ∀ q, S q → vdot m (vsub q p) <= kHalfTolerance).
  { intros m j Hm Hn q Hq. apply rleb_true, abs_le_inv in Hn. pose proof (proj1 (proj1 (C83_solid q)) Hq m j Hm) as Hu. unfold under, height in *. unfold vdot. cbn [vsub vx vy vz]. lra. }
  destruct (near (vx sv) || near (vy sv) || near (vz sv)) eqn:En.
  - split; [done|]. intros _. split; [auto|].
    set (sum := vadd (vadd (if near (vz sv) then nz else vzero) (if near (vy sv) then ny else vzero)) (if near (vx sv) then nx else vzero)).
    assert (Hs : ∀ q, S q → vdot sum (vsub q p) <= 3 * kHalfTolerance).
    { intros q Hq. assert (D : ∀ a b c : v3, vdot (vadd a b) c = vdot a c + vdot b c) by (intros; unfold vdot; cbn; ring). unfold sum. rewrite !D.
      assert (K : ∀ b m j, In (m, j) F → near (height m j p) = b → vdot (if b then m else vzero) (vsub q p) <= kHalfTolerance).
      { intros [] m j Hm Hb; [by apply (Q m j)|]. unfold vdot. cbn. lra. }
      pose proof (K (near (vx sv)) nx (- (pp_ctx s * dx)) Ix ltac:(by rewrite Ex)). pose proof (K (near (vy sv)) ny (- (pp_cty s * dy)) Iy ltac:(by rewrite Ey)). pose proof (K (near (vz sv)) nz (- dz) Iz ltac:(by rewrite Ez)). lra. }
    assert (Hpos : 0 < vdot sum sum).
    { pose proof (vdot_self_nonneg sum). destruct (Req_dec (vdot sum sum) 0) as [E0|]; [|lra]. exfalso.
      unfold vdot in E0. pose proof (Rle_0_sqr (vx sum)) as A1. pose proof (Rle_0_sqr (vy sum)) as A2. pose proof (Rle_0_sqr (vz sum)) as A3. unfold Rsqr in *.
      assert (vx sum = 0) as E1 by nra. assert (vy sum = 0) as E2 by nra. assert (vz sum = 0) as E3 by nra.
      destruct comps as (Cx & Cy0 & Cy). pose proof (ctx_pos s G) as Px. pose proof (cty_pos s G) as Py. unfold sum in E1, E2, E3.
      destruct (near (vx sv)); [destruct (sign_cases (vx (transform s p))) as [E|E]; unfold nx, ny, nz in E1; destruct (near (vy sv)), (near (vz sv)); cbn [vx vadd vscale vzero] in E1; rewrite E, Cx, ?Cy0 in E1; lra|].
      destruct (near (vy sv)); [destruct (sign_cases (vy (transform s p))) as [E|E]; unfold ny, nz in E2; destruct (near (vz sv)); cbn [vy vadd vscale vzero] in E2; rewrite E, Cy in E2; lra|].
      cbn [orb] in En. rewrite En in E3. unfold nz in E3. cbn [vz vadd vzero] in E3. destruct (sign_cases (vz (transform s p))) as [E|E]; rewrite E in E3; lra. }
    destruct (rgtb_spec (vdot sum sum) 1) as [L|L]; [|split; [lra|]; exact Hs]. assert (U : vdot (unitize sum) (unitize sum) = 1) by (apply unit_scale; lra). split; [lra|]. intros q Hq. specialize (Hs q Hq).
    pose proof (vmag_sqr sum). pose proof (vmag_nonneg sum). assert (1 <= vmag sum) as Hm by (apply sqr_le_le; [assumption|lra]).
    replace (vdot (unitize sum) (vsub q p)) with (vdot sum (vsub q p) / vmag sum) by (unfold unitize, vdot; cbn [vscale vx vy vz]; field; lra).
    apply Rmult_le_reg_r with (vmag sum); [lra|]. replace (vdot sum (vsub q p) / vmag sum * vmag sum) with (vdot sum (vsub q p)) by (field; lra). nra.
  - split; [|done]. intros Hi. exfalso. rewrite !orb_false_iff in En. unfold near in En. rewrite !rleb_false in En. unfold para_inside in Hi. cbv zeta in Hi. fold sv in Hi. 
    destruct (rltb_spec (Rabs (vmax sv)) kHalfTolerance) as [L|L]; [|destruct (rltb (vmax sv) 0); done].
    destruct (vmax_attained sv) as [E|[E|E]]; rewrite E in L; lra.
Qed.
(** Not valid: the outward normal of the face with the largest height. *)
Theorem C83_normal_invalid p n : para_normal s p = (n, false) → ∃ k, In (n, k) F ∧ ∀ m j, In (m, j) F → height m j p <= height n k p.
Proof using Hr.
  rewrite normal_sum. cbv zeta. destruct (signed_x p) as [Ix Ex]. destruct (signed_y p) as [Iy Ey]. destruct (signed_z p) as [Iz Ez]. cbv zeta in Ix, Ex, Iy, Ey, Iz, Ez. destruct (top_heights p) as [T _].
  destruct (near _ || near _ || near _); [done|]. intros Hn. apply (f_equal fst) in Hn. cbn [fst] in Hn. rewrite <- Hn. clear Hn n.
  assert (K : ∀ n k, In (n, k) F → height n k p = ptop s p → ∃ k, In (n, k) F ∧ ∀ m j, In (m, j) F → height m j p <= height n k p) by (intros n1 k1 H1 H2; exists k1; split; [done|]; intros m j Hm; rewrite H2; by apply T).
  destruct (reqb_spec (vz (safety_vector s (transform s p))) (ptop s p)) as [E|Nz]; [eapply K; [exact Iz|congruence]|].
  destruct (reqb_spec (vy (safety_vector s (transform s p))) (ptop s p)) as [E|Ny]; [eapply K; [exact Iy|congruence]|].
  eapply K; [exact Ix|]. rewrite Ex. unfold ptop in *. destruct (vmax_attained (safety_vector s (transform s p))) as [E|[E|E]]; congruence.
Qed.
End Para.
Print Assumptions C83_solid.
Print Assumptions C83_contains.
Print Assumptions C83_inside.
Print Assumptions C83_safety_to_out.
Print Assumptions C83_safety_to_in.
Print Assumptions C83_to_out.
Print Assumptions C83_to_out_outside.
Print Assumptions C83_to_in.
Print Assumptions C83_to_in_infinite.
Print Assumptions C83_normal.
Print Assumptions C83_normal_valid.
Print Assumptions C83_normal_invalid.
