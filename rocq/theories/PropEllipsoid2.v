(** C87: ellipsoids with cuts: ray distances. *)
From Coq Require Import Reals Lra Lia Bool ZArith Psatz.
From stdpp Require Import base list option numbers tactics.
From Verif Require Import Real3 AABBModel AABBProofs BoxModel BoxProofs PlanesModel TetModel ConeModel ConeSpec ConeProofs EllTubeModel EllTubeSpec EllTubeProofs EllTubeProofs2 EllTubeProofs3 EllTubeProofs4 EllipsoidModel EllipsoidSpec EllipsoidProofs EllipsoidProofs2 EllipsoidProofs3.
Import stdpp.list.
Local Open Scope R_scope.

Local Notation sizes A B C zb zt := (2 * kTolerance <= A ∧ 2 * kTolerance <= B ∧ 2 * kTolerance <= C ∧ - C <= zb < zt ∧ zt <= C).
(** DistanceToOut from a point of the solid is where the ray leaves it; or it is zero, the point is on the side up to the rounding
    and no more than a 2^24th of the shortest semi-axis lies ahead. *)
Theorem C87_to_out A B C zb zt inf p d : sizes A B C zb zt → vdot d d = 1 → 2 * Rmax A (Rmax B C) <= inf → es_solid A B C zb zt p →
  let s := es_to_out inf (mk_ellipsoid A B C zb zt) p d in
  leaves (es_solid A B C zb zt) p d s ∨ (s = 0 ∧ 1 - ball_at A B C p <= 2 * kEpsilon ∧ ∀ u, 0 <= u → es_solid A B C zb zt (along p d u) → u <= es_short A B C / 2 ^ 24).
Proof. intros (HA & HB & HC & Hz) Hd HI S. by apply to_out_spec. Qed.
Print Assumptions C87_to_out.
(** From a point that is not contained the answer is -1. *)
Theorem C87_to_out_outside A B C zb zt inf p d : sizes A B C zb zt → ¬ es_moved A B C zb zt kHalfTolerance p → es_to_out inf (mk_ellipsoid A B C zb zt) p d = -1.
Proof. intros (HA & HB & HC & Hz) N. by apply to_out_outside. Qed.
Print Assumptions C87_to_out_outside.
(** DistanceToIn is where the line enters the solid, to stay there for half a tolerance at least; it is positive off the solid.
    kInfLength is given only when the way ahead never gets deep, or the line has no more than half a tolerance in the solid. *)
Theorem C87_to_in A B C zb zt inf p d : sizes A B C zb zt → vdot d d = 1 → vz d = 0 ∨ kAbsorb <= Rabs (es_short A B C / C * vz d) → (vz d = 0 → 2 * vmag p + Rmax A (Rmax B C) <= kHalfTolerance / kTiny) →
  let s := es_to_in inf (mk_ellipsoid A B C zb zt) p d in
  (enters (es_solid A B C zb zt) kHalfTolerance p d s ∧ (¬ es_solid A B C zb zt p → 0 < s)) ∨
  (s = inf ∧ ((∀ u, 0 <= u → es_shallow A B C zb zt (4 * kEpsilon * (vmag p * vmag p)) (along p d u)) ∨
              (∀ u u', es_solid A B C zb zt (along p d u) → es_solid A B C zb zt (along p d u') → Rabs (u - u') <= kHalfTolerance))).
Proof. intros (HA & HB & HC & Hz) Hd D1 D2. by apply to_in_spec. Qed.
Print Assumptions C87_to_in.
(** A ray that does get deep and stays long enough is not missed. *)
Theorem C87_to_in_hit A B C zb zt inf p d u u' : sizes A B C zb zt → vdot d d = 1 → vz d = 0 ∨ kAbsorb <= Rabs (es_short A B C / C * vz d) → (vz d = 0 → 2 * vmag p + Rmax A (Rmax B C) <= kHalfTolerance / kTiny) →
  0 <= u → ¬ es_shallow A B C zb zt (4 * kEpsilon * (vmag p * vmag p)) (along p d u) → es_solid A B C zb zt (along p d u') → kHalfTolerance < Rabs (u - u') →
  enters (es_solid A B C zb zt) kHalfTolerance p d (es_to_in inf (mk_ellipsoid A B C zb zt) p d).
Proof.
  intros (HA & HB & HC & Hz) Hd D1 D2 U0 SH S' L. destruct (to_in_spec A B C zb zt HA HB HC Hz inf p d Hd D1 D2) as [[E _]|[_ [S|S]]]; [done|by destruct (SH (S u U0))|]. assert (Su : es_solid A B C zb zt (along p d u)).
  { destruct (Rle_dec zb (vz (along p d u))) as [Q1|Q1]; [destruct (Rle_dec (vz (along p d u)) zt) as [Q2|Q2]; [destruct (Rle_dec (ball_at A B C (along p d u)) 1) as [Q3|Q3]; [by split|]|]|]; exfalso; apply SH, (not_solid_shallow A B C zb zt HA HB HC Hz); intros [? ?]; lra. }
  specialize (S u u' Su S'). lra.
Qed.
Print Assumptions C87_to_in_hit.
Lemma tol_tiny : 0 < kTolerance <= / 1000.
Proof. unfold kTolerance. lra. Qed.
Lemma eps_tiny : 0 < kEpsilon <= / 100000.
Proof. unfold kEpsilon. lra. Qed.
(** Along z through the ellipsoid with the semi-axes 2, 1 and 2, cut at -1 and 1: out at 1 from the middle, in at 4 from z = -5. *)
Example rays_cut inf : 100 <= inf → let t := mk_ellipsoid 2 1 2 (-1) 1 in es_to_out inf t vzero (V3 0 0 1) = 1 ∧ es_to_in inf t (V3 0 0 (-5)) (V3 0 0 1) = 4.
Proof.
  intros HI t. unfold t. pose proof tol_tiny as T. pose proof eps_tiny as EP. assert (SI : sizes 2 1 2 (-1) 1) by (repeat split; lra). assert (MIN : es_short 2 1 2 = 1) by (unfold es_short; rewrite (Rmin_left 1 2), Rmin_right; lra). assert (DD : vdot (V3 0 0 1) (V3 0 0 1) = 1) by (unfold vdot; cbn [vx vy vz]; ring).
  assert (EX : ∀ x, ball_at 2 1 2 (V3 0 0 x) = Rabs x / 2). { intros x. unfold ball_at. cbn [vx vy vz]. replace (0 / 2 * (0 / 2) + 0 / 1 * (0 / 1) + x / 2 * (x / 2)) with (Rabs x / 2 * (Rabs x / 2)). - apply sqrt_square. pose proof (Rabs_pos x). lra. - transitivity (Rabs x * Rabs x / 4); [field|]. rewrite <- Rabs_mult, Rabs_pos_eq by apply Rle_0_sqr. field. }
  assert (IN : ∀ x, es_solid 2 1 2 (-1) 1 (V3 0 0 x) ↔ -1 <= x <= 1). { intros x. unfold es_solid. rewrite EX. cbn [vz]. pose proof (abs_le x 2) as K. split; [tauto|]. intros V. assert (W : Rabs x <= 2) by (apply K; lra). lra. }
  assert (AL : ∀ a u, along (V3 0 0 a) (V3 0 0 1) u = V3 0 0 (a + u)) by (intros; unfold along; apply v3_eq; cbn; ring).
  split.
  - destruct (C87_to_out 2 1 2 (-1) 1 inf vzero (V3 0 0 1) SI DD) as [L|(_ & L & _)]; [rewrite (Rmax_right 1 2), Rmax_left; lra|apply (IN 0); lra| |].
    + set (s := es_to_out _ _ _ _) in *. change vzero with (V3 0 0 0) in L. destruct L as (S0 & P & Q). assert (s <= 1). { specialize (P s ltac:(lra)). rewrite AL, IN in P. lra. } assert (¬ s < 1). { intros L2. specialize (Q 1 ltac:(lra)). apply Q. rewrite AL, IN. lra. } lra.
    + change vzero with (V3 0 0 0) in L. rewrite EX, Rabs_R0 in L. lra.
  - assert (VM : vmag (V3 0 0 (-5)) = 5). { unfold vmag, vdot. cbn [vx vy vz]. replace (0 * 0 + 0 * 0 + -5 * -5) with (5 * 5) by ring. apply sqrt_square. lra. }
    assert (L : enters (es_solid 2 1 2 (-1) 1) kHalfTolerance (V3 0 0 (-5)) (V3 0 0 1) (es_to_in inf (mk_ellipsoid 2 1 2 (-1) 1) (V3 0 0 (-5)) (V3 0 0 1))).
    { apply C87_to_in_hit with 5 4; [done|done|right; rewrite MIN; cbn [vz]; rewrite Rabs_pos_eq by lra; unfold kAbsorb; lra|cbn [vz]; intros; lra|lra| |rewrite AL, IN; lra|rewrite Rabs_pos_eq; unfold kHalfTolerance; lra].
      rewrite AL. replace (-5 + 5) with 0 by ring. unfold es_shallow. rewrite EX, MIN, VM. cbn [vz]. rewrite !Rabs_R0. unfold kHalfTolerance. lra. }
    set (s := es_to_in _ _ _ _) in *. assert (HT : 0 < kHalfTolerance) by (unfold kHalfTolerance; lra). destruct L as (P & Q). assert (4 <= s). { specialize (P s ltac:(lra)). rewrite AL, IN in P. lra. } assert (¬ 4 < s). { intros L2. apply (Q 4 L2). rewrite AL, IN. lra. } lra.
Qed.
(** The rounding test of DistanceToIn compares with the distance of the start, and a start is only moved up when it is far for the longest semi-axis.
    A needle with the semi-axes 1, 1 and 2^20 is therefore missed by a ray that goes through it a 32nd below its skin. *)
Theorem C87_to_in_needle_refuted :
  ¬ ∀ A B C zb zt inf p d u, sizes A B C zb zt → vdot d d = 1 → vz d = 0 → vmag p <= 2 ^ 25 → ¬ es_solid A B C zb zt p → 0 <= u →
     es_moved A B C zb zt (- (1 / 32)) (along p d u) → es_to_in inf (mk_ellipsoid A B C zb zt) p d = inf → inf <= u.
Proof.
  intros H. pose proof tol_tiny as T. pose proof eps_tiny as EP. set (N := 1048576). set (P := 16777216). assert (SI : sizes 1 1 N (- N) N) by (unfold N; repeat split; lra). destruct SI as (HA & HB & HC & Hz).
  assert (MIN : es_short 1 1 N = 1) by (unfold es_short; rewrite (Rmin_left 1 N) by (unfold N; lra); rewrite Rmin_left; lra). set (p := V3 (- P) (31 / 32) 0). set (d := V3 1 0 0).
  assert (FP : ∀ x, ball_at 1 1 N (V3 x (31 / 32) 0) = R_sqrt.sqrt (x * x + 961 / 1024)). { intros x. unfold ball_at. cbn [vx vy vz]. f_equal. unfold N. field. }
  assert (F0 : ball_at 1 1 N (V3 0 (31 / 32) 0) = 31 / 32). { rewrite FP. replace (0 * 0 + 961 / 1024) with (31 / 32 * (31 / 32)) by field. apply sqrt_square. lra. }
  assert (FD : ball_at 1 1 N d * ball_at 1 1 N d = 1). { rewrite f_sqr. unfold d, N. cbn [vx vy vz]. field. }
  assert (FS : ball_at 1 1 N p * ball_at 1 1 N p = P * P + 961 / 1024). { unfold p. rewrite FP, sqrt_sqrt; [unfold P; lra|unfold P; lra]. }
  assert (E : ∀ inf, es_to_in inf (mk_ellipsoid 1 1 N (- N) N) p d = inf).
  { intros inf. unfold es_to_in, es_move. destruct (fields 1 1 N (- N) N HA HB HC Hz) as (_ & _ & _ & _ & _ & _ & _ & RSP & RS & _). rewrite RSP. assert (MX : Rmax 1 (Rmax 1 N) = N) by (unfold N; rewrite (Rmax_right 1 1048576), Rmax_right; lra). rewrite MX.
    assert (NF : rgtb (vdot p p) (1024 * N * N) = false). { destruct (rgtb_spec (vdot p p) (1024 * N * N)) as [G|G]; [|done]. exfalso. unfold p, vdot, P, N in G. cbn [vx vy vz] in G. lra. } rewrite NF. cbn [andb]. unfold es_to_in_from. rewrite !scaled_rr, scaled_dot, RS, MIN by done. rewrite !Rmult_1_l, FD, FS.
    assert (PV : vdot (unscaled 1 1 N p) (unscaled 1 1 N d) = - P). { unfold vdot, unscaled, p, d, N. cbn [vx vy vz]. field. } rewrite PV. match goal with |- (if ?l || ?a || ?b then _ else _) = _ => assert (Q : a = true) end.
    { match goal with |- rleb ?x ?y = true => destruct (rleb_spec x y) as [G|G]; [done|exfalso; apply G] end. unfold P, kEpsilon. lra. } rewrite Q, orb_true_r. done. }
  specialize (H 1 1 N (- N) N (P + 1) p d P). assert (P + 1 <= P); [|lra]. apply H.
  - done.
  - unfold vdot, d. cbn [vx vy vz]. ring.
  - done.
  - apply sqr_le_le; [apply pow_le; lra|]. rewrite vmag_sqr. unfold p, vdot, P. cbn [vx vy vz]. lra.
  - intros [_ Q]. apply f_le_1 in Q. unfold p, P, N in Q. cbn [vx vy vz] in Q. lra.
  - unfold P. lra.
  - replace (along p d P) with (V3 0 (31 / 32) 0) by (unfold along, p, d; apply v3_eq; cbn; ring). unfold es_moved. rewrite F0, MIN. cbn [vz]. unfold N. lra.
  - apply E.
Qed.
Print Assumptions C87_to_in_needle_refuted.
