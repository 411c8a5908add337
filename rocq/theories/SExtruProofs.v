(** Proofs about extruded solids over convex polygons. *)
From Coq Require Import Reals Lra Lia Bool ZArith Psatz.
From stdpp Require Import base list list_numbers option numbers tactics.
From Verif Require Import Real3 BoxModel AABBModel ABBoxModel PlanesModel PlanesProofs PolygonModel PolygonSpec PolygonProofs PolygonProofs2 PolygonProofs3 SExtruModel SExtruSpec.
Import stdpp.list.
Local Open Scope R_scope.

Definition proj (e : edge) (d : v3) : R := - (e_a e * vx d + e_b e * vy d).
Lemma dseg_move e p d u : dseg e (vx (along p d u)) (vy (along p d u)) = dseg e (vx p) (vy p) + u * proj e d.
Proof. unfold dseg, proj, along. cbn. ring. Qed.
Lemma vdist_level x y z x' y' : vdist (V3 x y z) (V3 x' y' z) = dist2 (x, y) (x', y').
Proof. unfold dist2, vdist, flat, vmag, vsub, vdot. cbn. f_equal. ring. Qed.
Lemma vdist_xy p q : dist2 (xy p) (xy q) <= vdist p q.
Proof.
  apply sqr_le_le; [apply vdist_nonneg|]. rewrite dist2_sqr, vdist_sqr. unfold vdot, vsub, xy. cbn. assert (0 <= (vz p - vz q) * (vz p - vz q)) by apply Rle_0_sqr. lra.
Qed.
Lemma vdist_z p q : Rabs (vz p - vz q) <= vdist p q.
Proof.
  apply sqr_le_le; [apply vdist_nonneg|]. rewrite <- Rabs_mult, Rabs_pos_eq by apply Rle_0_sqr. rewrite vdist_sqr. unfold vdot, vsub. cbn.
  assert (0 <= (vx p - vx q) * (vx p - vx q)) by apply Rle_0_sqr. assert (0 <= (vy p - vy q) * (vy p - vy q)) by apply Rle_0_sqr. lra.
Qed.
Lemma vdist_up p c : vdist p (V3 (vx p) (vy p) (vz p + c)) = Rabs c.
Proof.
  assert (S : vdist p (V3 (vx p) (vy p) (vz p + c)) * vdist p (V3 (vx p) (vy p) (vz p + c)) = Rabs c * Rabs c).
  { rewrite vdist_sqr, <- Rabs_mult, Rabs_pos_eq by apply Rle_0_sqr. unfold vdot, vsub. cbn. ring. }
  pose proof (vdist_nonneg p (V3 (vx p) (vy p) (vz p + c))). pose proof (Rabs_pos c). apply Rle_antisym; apply sqr_le_le; lra.
Qed.

(** The loop of DistanceToOut *)
Fixpoint out_loop (p d : v3) (es : list edge) (tmax : R) : R :=
  match es with
  | [] => tmax
  | e :: es =>
    if rgtb (dseg e (vx p) (vy p)) kTolerance then - kTolerance else
    out_loop p d es (if rgtb (proj e d) 0 then let dist := - dseg e (vx p) (vy p) / nz (proj e d) in if rgtb tmax dist then dist else tmax else tmax)
  end.
Lemma out_loop_spec p d es : ∀ tmax, (∀ e, In e es → dseg e (vx p) (vy p) <= kTolerance) → let r := out_loop p d es tmax in
  r <= tmax ∧ (∀ e, In e es → 0 < proj e d → r <= - dseg e (vx p) (vy p) / nz (proj e d)) ∧
  (r = tmax ∨ ∃ e, In e es ∧ 0 < proj e d ∧ r = - dseg e (vx p) (vy p) / nz (proj e d)).
Proof.
  induction es as [|e es IH]; intros tmax H; cbn [out_loop]; [split; [lra|split; [done|by left]]|].
  pose proof (H e ltac:(by left)) as He. destruct (rgtb_spec (dseg e (vx p) (vy p)) kTolerance); [lra|].
  set (t := if rgtb (proj e d) 0 then _ else _). destruct (IH t ltac:(intros; apply H; by right)) as (H1 & H2 & H3). clear IH.
  assert (Ht : t <= tmax ∧ (0 < proj e d → t <= - dseg e (vx p) (vy p) / nz (proj e d)) ∧ (t = tmax ∨ 0 < proj e d ∧ t = - dseg e (vx p) (vy p) / nz (proj e d))).
  { unfold t. destruct (rgtb_spec (proj e d) 0) as [Hp|Hp]; [|split; [lra|split; [lra|by left]]]. cbv zeta.
    destruct (rgtb_spec tmax (- dseg e (vx p) (vy p) / nz (proj e d))); (split; [lra|split; [lra|]]); [right|left]; done. }
  destruct Ht as (T1 & T2 & T3). cbv zeta. split; [lra|]. split.
  - intros x [<-|Hx] Hp; [specialize (T2 Hp); lra|by apply H2].
  - destruct H3 as [H3|(x & Hx & Hp & H3)]; [|right; exists x; split; [by right|done]]. destruct T3 as [T3|[T3 T4]]; [left; lra|right; exists e; split; [by left|]; split; [done|lra]].
Qed.
Lemma out_loop_wrong p d es : ∀ tmax e, In e es → kTolerance < dseg e (vx p) (vy p) → out_loop p d es tmax = - kTolerance.
Proof.
  induction es as [|x es IH]; intros tmax e He H; [done|]. cbn [out_loop]. destruct (rgtb_spec (dseg x (vx p) (vy p)) kTolerance) as [Hx|Hx]; [done|].
  destruct He as [->|He]; [lra|]. by apply (IH _ e).
Qed.
Lemma to_out_convex_eq s p d : to_out_convex s p d =
  let dz := / 2 * (sh_hi s - sh_lo s) in
  if rgtb (Rabs (vz p - / 2 * (sh_lo s + sh_hi s)) - dz) kTolerance then - kTolerance else
  out_loop p d (pg_edges (sh_poly s)) (((if rltb (vz d) 0 then - dz else dz) - vz p) / nz (vz d)).
Proof.
  unfold to_out_convex. cbv zeta. destruct (rgtb _ _); [done|]. generalize (((if rltb (vz d) 0 then - (/ 2 * (sh_hi s - sh_lo s)) else / 2 * (sh_hi s - sh_lo s)) - vz p) / nz (vz d)).
  induction (pg_edges (sh_poly s)) as [|e es IH]; intros t; [done|]. cbn [out_loop]. destruct (rgtb _ _); [done|]. apply IH.
Qed.

(** The loop of DistanceToIn *)
Notation ahead p e := (dseg e (vx p) (vy p)).
Lemma in_sides_spec p d es : ∀ tmin tmax, match to_in_sides p d es tmin tmax with
  | None => ∃ e, In e es ∧ - kTolerance < ahead p e ∧ - kTolerance < proj e d
  | Some (r1, r2) =>
    (∀ e, In e es → - kTolerance < ahead p e → proj e d <= - kTolerance ∧ - ahead p e / nz (proj e d) <= r1) ∧ tmin <= r1 ∧
    (r1 = tmin ∨ ∃ e, In e es ∧ - kTolerance < ahead p e ∧ r1 = - ahead p e / nz (proj e d)) ∧
    (∀ e, In e es → ahead p e <= - kTolerance → - kTolerance < proj e d → r2 <= - ahead p e / nz (proj e d)) ∧ r2 <= tmax ∧
    (r2 = tmax ∨ ∃ e, In e es ∧ ahead p e <= - kTolerance ∧ - kTolerance < proj e d ∧ r2 = - ahead p e / nz (proj e d))
  end.
Proof.
  induction es as [|e es IH]; intros tmin tmax; cbn [to_in_sides]; [split; [done|split; [lra|split; [by left|split; [done|split; [lra|by left]]]]]|].
  fold (proj e d). destruct (rgtb_spec (ahead p e) (- kTolerance)) as [Ha|Ha]; destruct (rgtb_spec (proj e d) (- kTolerance)) as [Hm|Hm].
  - exists e. split; [by left|]. lra.
  - set (t := if rgtb _ tmin then _ else _). specialize (IH t tmax). destruct (to_in_sides p d es t tmax) as [[r1 r2]|].
    + assert (Ht : tmin <= t ∧ - ahead p e / nz (proj e d) <= t ∧ (t = tmin ∨ t = - ahead p e / nz (proj e d))).
      { unfold t. destruct (rgtb_spec (- ahead p e / nz (proj e d)) tmin); (split; [lra|split; [lra|]]); [by right|by left]. }
      destruct Ht as (T1 & T2 & T3), IH as (H1 & H2 & H3 & H4 & H5 & H6). split; [|split; [lra|split; [|split; [|split; [lra|]]]]].
      * intros x [<-|Hx] Hh; [split; [lra|lra]|by apply H1].
      * destruct H3 as [H3|(x & Hx & H3)]; [|right; exists x; split; [by right|done]]. destruct T3 as [T3|T3]; [left; lra|]. right. exists e. split; [by left|]. split; [lra|]. by rewrite H3, T3.
      * intros x [<-|Hx] Hh; [lra|by apply H4].
      * destruct H6 as [H6|(x & Hx & H6)]; [by left|]. right. exists x. split; [by right|done].
    + destruct IH as (x & Hx & H). exists x. split; [by right|done].
  - set (t := if rltb _ tmax then _ else _). specialize (IH tmin t). destruct (to_in_sides p d es tmin t) as [[r1 r2]|].
    + assert (Ht : t <= tmax ∧ t <= - ahead p e / nz (proj e d) ∧ (t = tmax ∨ t = - ahead p e / nz (proj e d))).
      { unfold t. destruct (rltb_spec (- ahead p e / nz (proj e d)) tmax); (split; [lra|split; [lra|]]); [by right|by left]. }
      destruct Ht as (T1 & T2 & T3), IH as (H1 & H2 & H3 & H4 & H5 & H6). split; [|split; [lra|split; [|split; [|split; [lra|]]]]].
      * intros x [<-|Hx] Hh; [lra|by apply H1].
      * destruct H3 as [H3|(x & Hx & H3)]; [by left|]. right. exists x. split; [by right|done].
      * intros x [<-|Hx] Hh Hq; [lra|by apply H4].
      * destruct H6 as [H6|(x & Hx & H6)]; [|right; exists x; split; [by right|done]]. destruct T3 as [T3|T3]; [left; lra|]. right. exists e. split; [by left|]. split; [lra|]. split; [lra|]. by rewrite H6, T3.
    + destruct IH as (x & Hx & H). exists x. split; [by right|done].
  - specialize (IH tmin tmax). destruct (to_in_sides p d es tmin tmax) as [[r1 r2]|].
    + destruct IH as (H1 & H2 & H3 & H4 & H5 & H6). split; [|split; [lra|split; [|split; [|split; [lra|]]]]].
      * intros x [<-|Hx] Hh; [lra|by apply H1].
      * destruct H3 as [H3|(x & Hx & H3)]; [by left|]. right. exists x. split; [by right|done].
      * intros x [<-|Hx] Hh Hq; [lra|by apply H4].
      * destruct H6 as [H6|(x & Hx & H6)]; [by left|]. right. exists x. split; [by right|done].
    + destruct IH as (x & Hx & H). exists x. split; [by right|done].
Qed.

Section Convex.
Variable inf : R.
Variable vs : list p2.
Hypothesis Cv : convex_cw vs.
Hypothesis Td : tidy kTolerance vs.
Variable s : shell.
Hypothesis Ep : pg_edges (sh_poly s) = mk_edges vs.
Notation es := (pg_edges (sh_poly s)).
Notation lo := (sh_lo s).
Notation hi := (sh_hi s).
Lemma edge_of e : In e es → ∃ a b, In (a, b) (sides vs) ∧ e = mk_edge b a.
Proof. rewrite Ep. apply mk_edges_in. Qed.
Lemma proj_rate a b d : In (a, b) (sides vs) → proj (mk_edge b a) d = rate a b d.
Proof.
  intros Hs. pose proof (dseg_move (mk_edge b a) vzero d 1) as H. rewrite !(edge_dseg vs Cv Td) in H by done.
  pose proof (dist2_pos a b (convex_proper _ Cv a b Hs)) as D. unfold rate. unfold along, vzero, cross2 in H. cbn in H.
  apply (Rmult_eq_reg_r (dist2 a b)); [|lra]. apply (f_equal (λ x, x * dist2 a b)) in H. rewrite Rmult_plus_distr_r in H. unfold Rdiv in *. rewrite !Rmult_assoc, !Rinv_l in * by lra. lra.
Qed.
Lemma side_le a b p c : In (a, b) (sides vs) → cross2 a b p <= c * dist2 a b ↔ cross2 a b p / dist2 a b <= c.
Proof.
  intros Hs. pose proof (dist2_pos a b (convex_proper _ Cv a b Hs)) as D. assert (E : cross2 a b p / dist2 a b * dist2 a b = cross2 a b p) by (field; lra).
  split; intros H; nra.
Qed.
Lemma prism_iff p : prism vs lo hi p ↔ (∀ e, In e es → ahead p e <= 0) ∧ lo <= vz p <= hi.
Proof.
  unfold prism. rewrite (hull_iff vs _ Cv). split; intros [H Hz]; (split; [|done]).
  - intros e He. destruct (edge_of e He) as (a & b & Hs & ->). rewrite (edge_dseg vs Cv Td) by done. apply (side_le a b _ 0 Hs). specialize (H a b Hs). unfold xy in H. lra.
  - intros a b Hs. specialize (H (mk_edge b a)). rewrite (edge_dseg vs Cv Td) in H by done. assert (cross2 a b (vx p, vy p) <= 0 * dist2 a b); [|unfold xy; lra].
    apply side_le; [done|]. apply H. rewrite Ep. apply mk_edges_in. eauto.
Qed.
Lemma prism_open_iff p : prism_open vs lo hi p ↔ (∀ e, In e es → ahead p e < 0) ∧ lo < vz p < hi.
Proof.
  unfold prism_open. rewrite (inner_iff vs _ Cv). split; intros [H Hz]; (split; [|done]).
  - intros e He. destruct (edge_of e He) as (a & b & Hs & ->). rewrite (edge_dseg vs Cv Td) by done. apply cross_sign; [by apply convex_proper with vs|]. specialize (H a b Hs). unfold xy in H. lra.
  - intros a b Hs. specialize (H (mk_edge b a)). rewrite (edge_dseg vs Cv Td) in H by done. unfold xy.
    assert (cross2 a b (vx p, vy p) < 0 * dist2 a b); [|lra]. apply cross_sign; [by apply convex_proper with vs|]. apply H. rewrite Ep. apply mk_edges_in. eauto.
Qed.
(** What it takes to be deep inside. *)
Lemma deep_iff_prism c p : 0 <= c → deep c (prism_open vs lo hi) p ↔ (∀ e, In e es → ahead p e < - c) ∧ lo + c < vz p < hi - c.
Proof.
  intros Hc. split.
  - intros H. split.
    + intros e He. destruct (edge_of e He) as (a & b & Hs & ->). pose proof (convex_proper _ Cv a b Hs) as Hab.
      specialize (H (V3 (fst (aside a b (xy p) c)) (snd (aside a b (xy p) c)) (vz p))). destruct p as [x y z]. rewrite vdist_level in H. unfold xy in H. cbn [vx vy vz] in *. rewrite <- surjective_pairing in H.
      rewrite (aside_dist a b (x, y) c Hab Hc) in H. specialize (H (Rle_refl c)). apply prism_open_iff in H as [H _]. specialize (H _ He). rewrite (edge_dseg vs Cv Td) in * by done. cbn [vx vy vz] in H.
      apply cross_sign; [done|]. apply cross_sign in H; [|done]. rewrite <- surjective_pairing, aside_cross in H by done. lra.
    + pose proof (H (V3 (vx p) (vy p) (vz p + c))) as H1. pose proof (H (V3 (vx p) (vy p) (vz p + - c))) as H2. rewrite vdist_up in H1. rewrite vdist_up in H2.
      rewrite Rabs_pos_eq in H1 by done. rewrite Rabs_Ropp, Rabs_pos_eq in H2 by done. destruct (H1 (Rle_refl c)) as [_ Z1]. destruct (H2 (Rle_refl c)) as [_ Z2]. cbn in Z1, Z2. lra.
  - intros [H Hz] q Hq. apply prism_open_iff. split.
    + intros e He. specialize (H e He). destruct (edge_of e He) as (a & b & Hs & ->). rewrite (edge_dseg vs Cv Td) in * by done.
      pose proof (cross2_rate a b (xy q) (xy p) (convex_proper _ Cv a b Hs)) as R. rewrite (dist2_comm (xy q)) in R. pose proof (vdist_xy p q). unfold xy in *. lra.
    + pose proof (vdist_z p q) as Z. apply Rle_trans with (r3 := c) in Z; [|done]. apply abs_le_inv in Z. lra.
Qed.

(** Rays leaving a prism that is centred at height zero. *)
Lemma to_out_inside p d : lo + hi = 0 → firm kAbsorb vs d → prism vs lo hi p → let D := to_out_convex s p d in
  0 <= D ∧ (∀ u, 0 <= u <= D → prism vs lo hi (along p d u)) ∧
  ((∀ u, D < u → ¬ prism vs lo hi (along p d u)) ∨ vz d = 0 ∧ D = (hi - vz p) / kTiny).
Proof.
  intros Hlh [Fz Fs] Hp. apply prism_iff in Hp as [Hp Hz]. rewrite to_out_convex_eq. cbv zeta. pose proof prism_iff as PI. replace lo with (- hi) in * by lra.
  pose proof kTolerance_pos as K. pose proof kAbsorb_pos as KA. assert (KT : 0 < kTiny) by (unfold kTiny; lra).
  replace (/ 2 * (hi - - hi)) with hi by lra. replace (vz p - / 2 * (- hi + hi)) with (vz p) by lra.
  destruct (rgtb_spec (Rabs (vz p) - hi) kTolerance) as [Hx|_].
  { exfalso. assert (Rabs (vz p) <= hi) by (apply Rabs_le; lra). lra. }
  set (tz := ((if rltb (vz d) 0 then - hi else hi) - vz p) / nz (vz d)).
  assert (Pr : ∀ e, In e es → 0 < proj e d → nz (proj e d) = proj e d).
  { intros e He Hpr. apply nz_large. destruct (edge_of e He) as (a & b & Hs & ->). rewrite proj_rate in * by done. destruct (Fs a b Hs); [lra|done]. }
  assert (Tz : 0 <= tz ∧ (∀ u, 0 <= u <= tz → - hi <= vz p + u * vz d <= hi) ∧ ((∀ u, tz < u → ¬ (- hi <= vz p + u * vz d <= hi)) ∨ vz d = 0 ∧ tz = (hi - vz p) / kTiny)).
  { unfold tz. destruct (rltb_spec (vz d) 0) as [Hd|Hd].
    - rewrite nz_large by (destruct Fz; [lra|done]). set (t := (- hi - vz p) / vz d). assert (Et : t * vz d = - hi - vz p) by (unfold t; field; lra).
      split; [nra|]. split; [intros; nra|]. left. intros u Hu [Hx _]. nra.
    - destruct (Req_dec (vz d) 0) as [E0|E0].
      + rewrite E0, nz_zero. unfold Rdiv. split; [apply Rmult_le_pos; [lra|left; by apply Rinv_0_lt_compat]|]. split; [intros; lra|]. right. done.
      + rewrite nz_large by (destruct Fz; [lra|done]). set (t := (hi - vz p) / vz d). assert (Et : t * vz d = hi - vz p) by (unfold t; field; lra).
        split; [nra|]. split; [intros; nra|]. left. intros u Hu [_ Hx]. nra. }
  clearbody tz. destruct Tz as (Z1 & Z2 & Z3). destruct (out_loop_spec p d es tz) as (H1 & H2 & H3); [intros e He; specialize (Hp e He); lra|].
  set (D := out_loop p d es tz) in *. clearbody D. assert (Q : ∀ e, In e es → 0 < proj e d → ahead p e + (- ahead p e / nz (proj e d)) * proj e d = 0) by (intros e He Hpr; rewrite Pr by done; field; lra).
  assert (D0 : 0 <= D).
  { destruct H3 as [->|(e & He & Hpr & ->)]; [done|]. rewrite Pr by done. specialize (Hp e He). apply Rmult_le_pos; [lra|]. left. by apply Rinv_0_lt_compat. }
  split; [done|]. split.
  - intros u Hu. apply PI. split; [|replace (vz (along p d u)) with (vz p + u * vz d) by (unfold along; cbn; ring); rewrite <- ?Hlh; pose proof (Z2 u ltac:(lra)); lra].
    intros e He. rewrite dseg_move. specialize (Hp e He). destruct (Rle_dec (proj e d) 0); [nra|]. specialize (H2 e He ltac:(lra)). specialize (Q e He ltac:(lra)). nra.
  - destruct H3 as [E|(e & He & Hpr & E)].
    + destruct Z3 as [Z3|[Z3 Z4]]; [left|right; split; [done|lra]]. intros u Hu Hpx. apply PI in Hpx as [_ Hpx]. apply (Z3 u); [lra|]. unfold along in Hpx. cbn in Hpx. lra.
    + left. intros u Hu Hpx. apply PI in Hpx as [Hpx _]. specialize (Hpx e He). rewrite dseg_move in Hpx. specialize (Q e He Hpr). rewrite <- E in Q. nra.
Qed.

(** Rays into a prism *)
Lemma rate_le1 a b d : In (a, b) (sides vs) → vmag d <= 1 → Rabs (rate a b d) <= 1.
Proof.
  intros Hs Hd. pose proof (dist2_pos a b (convex_proper _ Cv a b Hs)) as D. unfold rate.
  assert (L : Rabs ((fst b - fst a) * vy d - (snd b - snd a) * vx d) <= dist2 a b).
  { apply sqr_le_le; [lra|]. rewrite <- Rabs_mult, Rabs_pos_eq by apply Rle_0_sqr. rewrite dist2_sqr.
    assert (M : vx d * vx d + vy d * vy d + vz d * vz d <= 1). { pose proof (vmag_sqr d) as E. unfold vdot in E. pose proof (vmag_nonneg d). nra. }
    set (A := fst b - fst a) in *. set (B := snd b - snd a) in *. replace (fst a - fst b) with (- A) by (unfold A; ring). replace (snd a - snd b) with (- B) by (unfold B; ring).
    assert (0 <= (A * vx d + B * vy d) * (A * vx d + B * vy d)) by apply Rle_0_sqr. assert (0 <= vz d * vz d) by apply Rle_0_sqr.
    assert ((A * A + B * B) * (vx d * vx d + vy d * vy d) <= (A * A + B * B) * 1); [apply Rmult_le_compat_l; [apply Rplus_le_le_0_compat; apply Rle_0_sqr|lra]|]. nra. }
  unfold Rdiv. rewrite Rabs_mult, (Rabs_pos_eq (/ dist2 a b)) by (left; by apply Rinv_0_lt_compat).
  apply (Rmult_le_reg_r (dist2 a b)); [done|]. rewrite Rmult_assoc, Rinv_l by lra. lra.
Qed.
Lemma vz_le1 d : vmag d <= 1 → Rabs (vz d) <= 1.
Proof.
  intros Hd. apply sqr_le_le; [lra|]. rewrite <- Rabs_mult, Rabs_pos_eq by apply Rle_0_sqr. pose proof (vmag_sqr d) as E. unfold vdot in E. pose proof (vmag_nonneg d).
  assert (0 <= vx d * vx d) by apply Rle_0_sqr. assert (0 <= vy d * vy d) by apply Rle_0_sqr. nra.
Qed.
(** Every side is followed exactly, left by at least [kAbsorb], or approached by at least the tolerance. *)
Definition brisk (d : v3) : Prop := zero_or kAbsorb (vz d) ∧ ∀ a b, In (a, b) (sides vs) → rate a b d = 0 ∨ kAbsorb <= rate a b d ∨ rate a b d <= - kTolerance.
Notation dz := (/ 2 * (hi - lo)).
Notation mz := (/ 2 * (lo + hi)).
Lemma to_in_z p d : lo <= hi → zero_or kAbsorb (vz d) → let pz := vz p - mz in
  ¬ (- kTolerance < Rabs pz - dz ∧ 0 <= pz * vz d) → let invz := -1 / nz (vz d) in let ddz := if rltb invz 0 then dz else - dz in
  let t1 := (pz + ddz) * invz in let t2 := (pz - ddz) * invz in
  0 < t2 ∧ (∀ u, 0 <= u → t1 <= u <= t2 → lo <= vz p + u * vz d <= hi) ∧ (vz d = 0 → lo <= vz p <= hi) ∧
  (∀ u, 0 <= u < t1 → ¬ (lo <= vz p + u * vz d <= hi)) ∧ (¬ (lo <= vz p <= hi) → 0 < t1) ∧
  (∀ u, 0 <= u <= 10 ^ 20 → Rabs (vz d) <= 1 → lo + kTolerance < vz p + u * vz d < hi - kTolerance → t1 + kTolerance < u < t2).
Proof.
  intros Hlh Fz. cbv zeta. set (pz := vz p - mz). intros Hn. pose proof kTolerance_pos as K. pose proof kAbsorb_pos as KA. assert (KT : 0 < kTiny) by (unfold kTiny; lra).
  assert (Zp : vz p = pz + mz) by (unfold pz; lra). rewrite Zp. clearbody pz. clear Zp.
  set (h := dz) in *. set (m := mz) in *. assert (Hh : 0 <= h) by (unfold h; lra). assert (El : lo = m - h) by (unfold m, h; lra). assert (Eh : hi = m + h) by (unfold m, h; lra). rewrite !El, !Eh. clearbody m h. clear Hlh.
  assert (Ab : Rabs pz <= h - kTolerance ∨ h - kTolerance < Rabs pz ∧ pz * vz d < 0) by (destruct (Rle_dec (Rabs pz) (h - kTolerance)); [by left|right; split; [lra|]; apply Rnot_le_lt; intros Hx; apply Hn; lra]).
  clear Hn. destruct (Rtotal_order (vz d) 0) as [Hd|[Hd|Hd]].
  - rewrite nz_large by (destruct Fz; [lra|done]). assert (Iz : 0 < -1 / vz d) by (replace (-1 / vz d) with (/ - vz d) by (field; lra); apply Rinv_0_lt_compat; lra).
    destruct (rltb_spec (-1 / vz d) 0); [lra|]. set (i := -1 / vz d) in *. assert (Ei : i * vz d = -1) by (unfold i; field; lra). clearbody i.
    assert (Hp : - h < pz). { destruct Ab as [Ab|[Ab1 Ab2]]; [apply abs_le_inv in Ab; lra|nra]. }
    set (t1 := (pz + - h) * i). set (t2 := (pz - - h) * i). assert (E1 : t1 * vz d = h - pz) by (unfold t1; replace ((pz + - h) * i * vz d) with ((pz + - h) * (i * vz d)) by ring; rewrite Ei; ring).
    assert (E2 : t2 * vz d = - h - pz) by (unfold t2; replace ((pz - - h) * i * vz d) with ((pz - - h) * (i * vz d)) by ring; rewrite Ei; ring). clearbody t1 t2.
    split; [nra|]. split; [intros u H0 [Hu1 Hu2]; assert (t2 * vz d <= u * vz d <= t1 * vz d) by (split; nra); lra|]. split; [lra|]. split; [intros u [Hu1 Hu2] Hx; assert (t1 * vz d < u * vz d) by nra; lra|]. split; [intros Hx; apply Rnot_le_lt; intros Hy; apply Hx; assert (0 <= t1 * vz d) by nra; lra|].
    intros u Hu H1 Hx. assert (- 1 <= vz d) by (apply abs_le_inv in H1; lra). split; [|apply Rnot_le_lt; intros Hy; assert (u * vz d <= t2 * vz d) by nra; lra]. apply Rnot_le_lt. intros Hy. assert ((t1 + kTolerance) * vz d <= u * vz d) by nra. nra.
  - rewrite Hd, nz_zero. assert (Iz : -1 / kTiny < 0) by (replace (-1 / kTiny) with (- / kTiny) by (field; lra); pose proof (Rinv_0_lt_compat _ KT); lra).
    destruct (rltb_spec (-1 / kTiny) 0) as [_|]; [|lra]. assert (Ab' : - (h - kTolerance) <= pz <= h - kTolerance) by (destruct Ab as [Ab|[_ Ab]]; [apply abs_le_inv in Ab; lra|exfalso; rewrite Hd in Ab; lra]).
    assert (Ik : -1 / kTiny = - 10 ^ 30) by (unfold kTiny; field; lra). rewrite Ik.
    split; [nra|]. split; [intros; lra|]. split; [intros; lra|]. split; [intros; nra|]. split; [intros; exfalso; nra|]. intros u Hu _ Hx.
    assert (kTolerance * 10 ^ 30 = 10 ^ 21) as Kt by (unfold kTolerance; lra). split; [|nra]. assert ((pz + h) * - 10 ^ 30 <= kTolerance * - 10 ^ 30) by nra. assert (kTolerance <= 1) by (unfold kTolerance; lra). nra.
  - rewrite nz_large by (destruct Fz; [lra|done]). assert (Iz : -1 / vz d < 0) by (replace (-1 / vz d) with (- / vz d) by (field; lra); pose proof (Rinv_0_lt_compat _ Hd); lra).
    destruct (rltb_spec (-1 / vz d) 0) as [_|]; [|lra]. set (i := -1 / vz d) in *. assert (Ei : i * vz d = -1) by (unfold i; field; lra). clearbody i.
    assert (Hp : pz < h). { destruct Ab as [Ab|[Ab1 Ab2]]; [apply abs_le_inv in Ab; lra|nra]. }
    set (t1 := (pz + h) * i). set (t2 := (pz - h) * i). assert (E1 : t1 * vz d = - h - pz) by (unfold t1; replace ((pz + h) * i * vz d) with ((pz + h) * (i * vz d)) by ring; rewrite Ei; ring).
    assert (E2 : t2 * vz d = h - pz) by (unfold t2; replace ((pz - h) * i * vz d) with ((pz - h) * (i * vz d)) by ring; rewrite Ei; ring). clearbody t1 t2.
    split; [nra|]. split; [intros u H0 [Hu1 Hu2]; assert (t1 * vz d <= u * vz d <= t2 * vz d) by (split; nra); lra|]. split; [lra|]. split; [intros u [Hu1 Hu2] Hx; assert (u * vz d < t1 * vz d) by nra; lra|]. split; [intros Hx; apply Rnot_le_lt; intros Hy; apply Hx; assert (t1 * vz d <= 0) by nra; lra|].
    intros u Hu H1 Hx. assert (vz d <= 1) by (apply abs_le_inv in H1; lra). split; [|apply Rnot_le_lt; intros Hy; assert (t2 * vz d <= u * vz d) by nra; lra]. apply Rnot_le_lt. intros Hy. assert (u * vz d <= (t1 + kTolerance) * vz d) by nra. nra.
Qed.
Lemma to_in_spec p d : lo <= hi → brisk d → let D := to_in_convex inf s p d in
  (D ≠ inf → prism vs lo hi (along p d (Rmax 0 D)) ∧ (∀ u, 0 <= u < D → ¬ prism vs lo hi (along p d u)) ∧ (¬ prism vs lo hi p → 0 < D)) ∧
  (D = inf → vmag d <= 1 → ∀ u, 0 <= u <= 10 ^ 20 → u < inf → ¬ deep kTolerance (prism_open vs lo hi) (along p d u)).
Proof.
  intros Hlh [Fz Fs]. cbv zeta. unfold to_in_convex. set (pz := vz p - mz). pose proof kTolerance_pos as K. pose proof kAbsorb_pos as KA. assert (KT : 0 < kTiny) by (unfold kTiny; lra).
  assert (Az : ∀ u, vz (along p d u) = vz p + u * vz d) by (intros u; unfold along; cbn; ring).
  assert (Hn : rgtb (Rabs pz - dz) (- kTolerance) && rgeb (pz * vz d) 0 = true ∧ - kTolerance < Rabs pz - dz ∧ 0 <= pz * vz d ∨
    rgtb (Rabs pz - dz) (- kTolerance) && rgeb (pz * vz d) 0 = false ∧ ¬ (- kTolerance < Rabs pz - dz ∧ 0 <= pz * vz d)).
  { destruct (rgtb_spec (Rabs pz - dz) (- kTolerance)), (rgeb_spec (pz * vz d) 0); cbn [andb]; [left|right..]; (split; [done|lra]). }
  destruct Hn as [(-> & Ha & Hb)|[-> Hn]].
  { split; [done|]. intros _ _ u Hu _ Hx. apply deep_iff_prism in Hx as [_ Hx]; [|lra]. rewrite Az in Hx. assert (Zp : vz p = pz + mz) by (unfold pz; lra). rewrite Zp in Hx.
    assert (Rabs pz <= Rabs (pz + u * vz d)); [|assert (Rabs (pz + u * vz d) < dz - kTolerance) by (apply Rabs_def1; lra); lra].
    apply sqr_le_le; [apply Rabs_pos|]. rewrite <- !Rabs_mult, !Rabs_pos_eq by apply Rle_0_sqr. assert (0 <= (u * vz d) * (u * vz d)) by apply Rle_0_sqr. nra. }
  all: destruct (to_in_z p d Hlh Fz Hn) as (Z1 & Z2 & _ & Z3 & Z4 & Z5); fold pz in Z1, Z2, Z3, Z4, Z5;
    set (t1 := (pz + _) * _) in *; set (t2 := (pz - _) * _) in *; clearbody t1 t2; clear Hn.
  all: pose proof (in_sides_spec p d es t1 t2) as L; destruct (to_in_sides p d es t1 t2) as [[r1 r2]|].
  all: assert (Fe : ∀ e, In e es → proj e d = 0 ∨ kAbsorb <= proj e d ∨ proj e d <= - kTolerance) by (intros e He; destruct (edge_of e He) as (a & b & Hs & ->); rewrite proj_rate by done; by apply Fs).
  all: assert (F1 : ∀ e, In e es → vmag d <= 1 → - 1 <= proj e d) by (intros e He Hd; destruct (edge_of e He) as (a & b & Hs & ->); rewrite proj_rate by done; pose proof (rate_le1 a b d Hs Hd) as R; apply abs_le_inv in R; lra).
  1: destruct L as (L1 & L2 & L3 & L4 & L5 & L6);
    assert (Nn : ∀ e, In e es → proj e d <= - kTolerance → ahead p e + - ahead p e / nz (proj e d) * proj e d = 0)
      by (intros e He Hq; rewrite nz_large by (rewrite Rabs_left; [assert (kAbsorb <= kTolerance) by (unfold kAbsorb, kTolerance; lra); lra|lra]); field; lra);
    assert (Np : ∀ e, In e es → kAbsorb <= proj e d → ahead p e + - ahead p e / nz (proj e d) * proj e d = 0)
      by (intros e He Hq; rewrite nz_large by (rewrite Rabs_pos_eq; lra); field; lra);
    assert (R2 : 0 < r2) by (destruct L6 as [->|(e & He & H1 & H2 & ->)]; [done|]; destruct (Fe e He) as [Hq|[Hq|Hq]]; [rewrite Hq, nz_zero; apply Rmult_lt_0_compat; [lra|by apply Rinv_0_lt_compat]|specialize (Np e He Hq); nra|lra]);
    (destruct (rltb_spec r2 (r1 + kTolerance)) as [Hr|Hr]; split; [done|intros _ Hd u Hu Hui Hx|intros Hne|intros Hne Hd u Hu Hui Hx]).
  (* too short *)
  1: apply deep_iff_prism in Hx as [Hx Hxz]; [|lra]; rewrite Az in Hxz; specialize (Z5 u Hu (vz_le1 d Hd) Hxz);
    assert (G1 : r1 + kTolerance < u) by (destruct L3 as [->|(e & He & H1 & ->)]; [lra|]; destruct (L1 e He H1) as [Hq _]; specialize (Nn e He Hq); specialize (Hx e He); rewrite dseg_move in Hx; specialize (F1 e He Hd); apply Rnot_le_lt; intros Hy; nra);
    assert (G2 : u < r2) by (destruct L6 as [->|(e & He & H1 & H2 & ->)]; [lra|]; specialize (Hx e He); rewrite dseg_move in Hx; destruct (Fe e He) as [Hq|[Hq|Hq]];
      [rewrite Hq, nz_zero; assert (E30 : - ahead p e / kTiny = - ahead p e * 10 ^ 30) by (unfold kTiny; field; lra); rewrite E30; assert (kTolerance * 10 ^ 30 = 10 ^ 21) as Kt by (unfold kTolerance; lra); nra|
       specialize (Np e He Hq); nra|lra]); lra.
  (* infinity as a number *)
  2: apply deep_iff_prism in Hx as [Hx Hxz]; [|lra]; rewrite Az in Hxz; specialize (Z5 u Hu (vz_le1 d Hd) Hxz);
    assert (G1 : r1 + kTolerance < u) by (destruct L3 as [->|(e & He & H1 & ->)]; [lra|]; destruct (L1 e He H1) as [Hq _]; specialize (Nn e He Hq); specialize (Hx e He); rewrite dseg_move in Hx; specialize (F1 e He Hd); apply Rnot_le_lt; intros Hy; nra); lra.
  (* hit *)
  1: split; [apply prism_iff; rewrite Az; pose proof (Rmax_l 0 r1); pose proof (Rmax_r 0 r1); assert (Hm : Rmax 0 r1 <= r2) by (apply Rmax_lub; lra); split; [intros e He; rewrite dseg_move|apply Z2; lra]|].
  1: set (u := Rmax 0 r1) in *; clearbody u; destruct (Rlt_dec (- kTolerance) (ahead p e)) as [Hh|Hh];
    [destruct (L1 e He Hh) as [Hq Hq2]; specialize (Nn e He Hq); nra|
     destruct (Fe e He) as [Hq|[Hq|Hq]]; [rewrite Hq; lra|specialize (L4 e He ltac:(lra) ltac:(lra)); specialize (Np e He Hq); nra|nra]].
  1: split; [intros u Hu Hx; apply prism_iff in Hx as [Hx Hxz]; rewrite Az in Hxz; destruct L3 as [->|(e & He & H1 & ->)]; [by apply (Z3 u)|];
     destruct (L1 e He H1) as [Hq _]; specialize (Nn e He Hq); specialize (Hx e He); rewrite dseg_move in Hx; nra|].
  1: intros Hnp; apply Rnot_le_lt; intros Hr1; apply Hnp; apply prism_iff; split;
    [intros e He; apply Rnot_lt_le; intros Hh; destruct (L1 e He ltac:(lra)) as [Hq Hq2]; specialize (Nn e He Hq); nra|].
  1: destruct (Rle_dec lo (vz p)) as [A1|A1]; [destruct (Rle_dec (vz p) hi) as [A2|A2]; [lra|]|]; exfalso; assert (0 < t1) by (apply Z4; lra); lra.
  (* early return *)
  all: split; [done|]; intros _ Hd u Hu Hui Hx; apply deep_iff_prism in Hx as [Hx _]; [|lra]; destruct L as (e & He & H1 & H2); specialize (Hx e He); rewrite dseg_move in Hx;
    destruct (Fe e He) as [Hq|[Hq|Hq]]; [rewrite Hq in Hx; lra|nra|lra].
Qed.
End Convex.
