(** C89: the way in of elliptical cones. *)
From Coq Require Import Reals Lra Lia Bool ZArith Psatz.
From stdpp Require Import base list option numbers tactics.
From Verif Require Import Real3 AABBModel BoxModel BoxProofs PlanesModel PlanesProofs ConeSpec ConeProofs PolyconeSpec TubeProofs EllTubeModel EllTubeSpec EllTubeProofs EllTubeProofs2 EllTubeProofs3 EllConeModel EllConeSpec EllConeProofs EllConeProofs2 PropEllCone PropEllCone3 EllConeProofs3.
Import stdpp.list.
Local Open Scope R_scope.

(** On the axis, or off it by more than the kernel takes for the axis. *)
Definition off_axis (p : v3) : Prop := (vx p = 0 ∧ vy p = 0) ∨ 1 / 10 * kHalfTolerance <= Rabs (vx p) + Rabs (vy p).
(** What DistanceToIn may miss: rays that never get deeper than half a tolerance, that are in the solid for less than half a tolerance, or
    that only scratch it, for less than a 6e-8th of the distances involved. *)
Definition hardly (a b h c : R) (p d : v3) : Prop :=
  (∀ u, 0 <= u → not_deep a b h c (along p d u)) ∨
  (∀ u u', econe_solid a b h c (along p d u) → econe_solid a b h c (along p d u') → Rabs (u - u') < kHalfTolerance) ∨
  (∀ u u', econe_solid a b h c (along p d u) → econe_solid a b h c (along p d u') → Rabs (u - u') <= / 2 ^ 24 * (2 * vmag p + econe_reach a b h c)).
Lemma scratch u u' m M : Rabs u <= M → (u - m) * (u - m) <= 2 * / 2 ^ 52 * (m * m) → (u' - m) * (u' - m) <= 2 * / 2 ^ 52 * (m * m) → Rabs (u - u') <= / 2 ^ 24 * M.
Proof.
  intros U V V'. set (k := / 2 ^ 25). assert (K : 0 < k <= / 4) by (unfold k; lra). assert (K1 : 2 * / 2 ^ 52 = k * k * / 2) by (unfold k; field). assert (K2 : / 2 ^ 24 = 2 * k) by (unfold k; field). rewrite K1 in V, V'. rewrite K2. clearbody k. clear K1 K2. pose proof (Rabs_pos m) as MP.
  assert (Q : ∀ v, (v - m) * (v - m) <= k * k * / 2 * (m * m) → Rabs (v - m) <= k * (3 / 4) * Rabs m). { intros v W. apply sqr_le_le; [clear - K MP; nra|]. rewrite <- Rabs_mult, (Rabs_pos_eq ((v - m) * (v - m))) by (pose proof (Rle_0_sqr (v - m)) as Z; done). assert (ME : Rabs m * Rabs m = m * m) by (rewrite <- Rabs_mult; apply Rabs_pos_eq; pose proof (Rle_0_sqr m) as Z; done). replace (k * (3 / 4) * Rabs m * (k * (3 / 4) * Rabs m)) with (k * k * (9 / 16) * (Rabs m * Rabs m)) by field. rewrite ME. assert (0 <= k * k * (m * m)) by (apply Rmult_le_pos; [nra|pose proof (Rle_0_sqr m) as Z; done]). lra. }
  pose proof (Q u V) as Q1. pose proof (Q u' V') as Q2. assert (MM : Rabs m <= 4 / 3 * M). { assert (Rabs m <= Rabs u + Rabs (u - m)). { replace m with (u - (u - m)) at 1 by ring. unfold Rminus at 1. apply Rle_trans with (1 := Rabs_triang _ _). rewrite Rabs_Ropp. lra. } clear - H Q1 U K MP. nra. }
  replace (u - u') with ((u - m) + - (u' - m)) by ring. apply Rle_trans with (1 := Rabs_triang _ _). rewrite Rabs_Ropp. clear - Q1 Q2 MM K. nra.
Qed.
Section Cone.
Variable ellint : R -> R.
Variables inf a b h c : R.
Hypothesis Ha : 2 * kTolerance <= a.
Hypothesis Hb : 2 * kTolerance <= b.
Hypothesis Hc : 2 * kTolerance <= c.
Hypothesis Hh : c <= h.
Let t := mk_econe ellint a b h c.
Let S := econe_solid a b h c.
Notation rs := (econe_reach a b h c).
Lemma from_spec p d off : vdot d d = 1 → slanted a b d → vz d = 0 ∨ kAbsorb <= Rabs (vz d) → (vz d = 0 → vmag p + rs <= kHalfTolerance / kTiny) → Rabs (vz p) + c <= kAbsorb * inf → off_axis p →
  let s := ec_to_in_from inf t p d off in
  (enters S kHalfTolerance p d (s - off) ∧ (¬ S p → 0 < s - off)) ∨
  (s = inf ∧ ((∀ u, 0 <= u → not_deep a b h c (along p d u)) ∨ (∀ u u', S (along p d u) → S (along p d u') → Rabs (u - u') < kHalfTolerance) ∨ (∀ u u', S (along p d u) → S (along p d u') → Rabs (u - u') <= / 2 ^ 24 * (vmag p + rs)))).
Proof using Ha Hb Hc Hh.
  intros Hd Hs Sz Far Near Hx. pose proof kHalfTolerance_pos as T. assert (KT : 2 * kHalfTolerance = kTolerance) by (unfold kHalfTolerance; lra). destruct (tilt_eq a b Ha Hb) as (TP & _). destruct (A_nonzero ellint a b h c Ha Hb Hc Hh d Hd Hs) as [A0 AZ]. pose proof (value_nonneg ellint a b h c Ha Hb Hc Hh p d Hs) as G.
  destruct (D_all ellint a b h c Ha Hb Hc Hh p d Hd Hs) as [DE DN]. pose proof (roots_all ellint a b h c Ha Hb Hc Hh p d Hd Hs (ec_B t p d)) as RT.
  pose proof (away ellint a b h c Ha Hb Hc Hh p d Hx) as AW. pose proof (towards ellint a b h c Ha Hb Hc Hh p d Hx) as TW. pose proof (flying ellint a b h c Ha Hb Hc Hh p d Hs) as FL.
  assert (VW : ec_vz t d = vz d) by (unfold t; by apply vz_eq). destruct (fields ellint a b h c Ha Hb Hc Hh) as (_ & _ & HE & CE & _ & _ & CO & AP). assert (AR : ec_Ar t p = ell a b p * ell a b p) by (unfold t; by apply Ar_eq).
  assert (NA : ∀ u, nappe a b h (along p d u) ↔ vz p - h + vz d * u <= 0 ∧ ec_A t d * (u * u) + 2 * ec_B t p d * u + ec_C t p <= 0) by (intros u; by apply along_nappe).
  fold t in A0, AZ, G, DE, DN, RT, AW, TW, FL, HE, CE, CO, AP. cbv zeta. unfold ec_to_in_from. cbv zeta. rewrite DE, VW, HE, CE, CO, AP. set (A := ec_A t d) in *. set (B := ec_B t p d) in *. set (C := ec_C t p) in *. set (n := if rltb (Rabs (vx p) + Rabs (vy p)) (1 / 10 * kHalfTolerance) then 1 else R_sqrt.sqrt (ec_Ar t p)) in *.
  assert (SQ : R_sqrt.sqrt (ec_Ar t p) = ell a b p) by (rewrite AR; apply sqrt_square, e_nonneg). rewrite SQ. set (br := ec_Br t p d) in *. clearbody n br. set (z := vz p - h) in *. set (w := vz d) in *.
  assert (AB : (ell a b p + z) * tilt a b = above a b h p) by (unfold above, z; ring). rewrite AB.
  assert (P0 : along p d 0 = p) by (apply v3_eq; cbn; ring). assert (ZZ : ∀ u, vz (along p d u) = vz p + u * w) by done.
  assert (FL' : z * tilt a b > - kHalfTolerance → ec_Ar t p - (z + kHalfTolerance / tilt a b) * (z + kHalfTolerance / tilt a b) <= 0 → 0 <= A → ∀ u, 0 <= u → not_deep a b h c (along p d u)).
  { intros L1 L2 L3 u U. left. set (k := kHalfTolerance / tilt a b) in *. assert (KE : tilt a b * k = kHalfTolerance) by (unfold k; field; lra). assert (K0 : 0 < z + k) by (clear - L1 KE TP; nra). specialize (FL u k U ltac:(lra) K0). rewrite AR in L2. specialize (FL L2). unfold above. set (y := ell a b (along p d u)) in *. set (x := vz (along p d u)) in *. clearbody x y. clear - FL KE TP. nra. }
  destruct (rgeb (Rabs (vz p) - c) (- kHalfTolerance) && rgeb (vz p * w) 0 || rgeb (above a b h p) (- kHalfTolerance) && rgeb (br + n * w) 0 || rgtb (z * tilt a b) (- kHalfTolerance) && rleb (ec_Ar t p - (z + kHalfTolerance / tilt a b) * (z + kHalfTolerance / tilt a b)) 0 && rgeb A 0) eqn:DONE.
  { right. split; [done|]. left. apply orb_true_iff in DONE as [DONE|DONE]; [apply orb_true_iff in DONE as [DONE|DONE]|].
    - apply andb_true_iff in DONE as [LZ LW]. destruct (rgeb_spec (Rabs (vz p) - c) (- kHalfTolerance)) as [LZ'|]; [|done]. destruct (rgeb_spec (vz p * w) 0) as [LW'|]; [|done]. intros u U. right. rewrite ZZ. assert (Rabs (vz p) <= Rabs (vz p + u * w)); [|lra]. clear - LW' U. assert (0 <= u * (vz p * w)) by (apply Rmult_le_pos; lra). apply Rsqr_le_abs_0. unfold Rsqr. pose proof (Rle_0_sqr (u * w)) as Q. unfold Rsqr in Q. nra.
    - apply andb_true_iff in DONE as [LR LB]. destruct (rgeb_spec (above a b h p) (- kHalfTolerance)) as [LR'|]; [|done]. destruct (rgeb_spec (br + n * w) 0) as [LB'|]; [|done]. intros u U. left. specialize (AW u U ltac:(lra)). apply (above_mono a b h Ha Hb) in AW. lra.
    - apply andb_true_iff in DONE as [L L3]. apply andb_true_iff in L as [L1 L2]. destruct (rgtb_spec (z * tilt a b) (- kHalfTolerance)) as [L1'|]; [|done]. destruct (rleb_spec (ec_Ar t p - (z + kHalfTolerance / tilt a b) * (z + kHalfTolerance / tilt a b)) 0) as [L2'|]; [|done]. destruct (rgeb_spec A 0) as [L3'|]; [|done]. apply FL'; lra. }
  apply orb_false_iff in DONE as [DONE _]. apply orb_false_iff in DONE as [D1 D2].
  assert (LZ : - kHalfTolerance <= Rabs (vz p) - c → vz p * w < 0). { intros L. destruct (rgeb_spec (Rabs (vz p) - c) (- kHalfTolerance)); [|lra]. destruct (rgeb_spec (vz p * w) 0); [done|lra]. }
  assert (LR : - kHalfTolerance <= above a b h p → br + n * w < 0). { intros L. destruct (rgeb_spec (above a b h p) (- kHalfTolerance)); [|lra]. destruct (rgeb_spec (br + n * w) 0); [done|lra]. }
  clear D1 D2 AW FL FL'.
  assert (BACK : ∀ u, u < 0 → nappe a b h (along p d u) → nappe a b h p). { intros u U NU. destruct (Rle_dec (above a b h p) 0) as [L|L]; [by apply above_nappe in L|]. specialize (TW u U (LR ltac:(lra))). apply (above_mono a b h Ha Hb) in TW. apply above_nappe in NU; [|done..]. lra. }
  clear LR TW. destruct (rltb_spec (B * B - A * C) 0) as [D1|D1]; cbn [orb].
  { right. split; [done|]. right; left. intros u u' [_ U]. exfalso. apply NA in U as [_ U]. assert (AP' : 0 < A) by (destruct (Rtotal_order A 0) as [Q|[Q|Q]]; [specialize (DN Q); lra|done|lra]). pose proof (no_root A B C u AP' D1). lra. }
  destruct (rltb (B * B - A * C) (2 * kEpsilon * B * B) && rgeb A 0) eqn:SC.
  { right. split; [done|]. right; right. apply andb_true_iff in SC as [S1 S2]. destruct (rltb_spec (B * B - A * C) (2 * kEpsilon * B * B)) as [S1'|]; [|done]. destruct (rgeb_spec A 0) as [S2'|]; [|done]. intros v v' V V'. assert (RV : Rabs v <= vmag p + rs) by (apply (solid_reach ellint a b h c Ha Hb Hc Hh) in V; destruct (along_mag p d v Hd) as [M _]; lra). enough (ALL : ∀ u, S (along p d u) → (u - - B / A) * (u - - B / A) <= 2 * / 2 ^ 52 * (- B / A * (- B / A))) by (apply (scratch v v' (- B / A)); auto). intros u [_ U]. apply NA in U as [_ U]. fold kEpsilon.
    assert (E1 : A * A * ((u - - B / A) * (u - - B / A)) = (A * u + B) * (A * u + B)) by (field; done). assert (E2 : A * A * (2 * kEpsilon * (- B / A * (- B / A))) = 2 * kEpsilon * B * B) by (field; done). assert (E3 : (A * u + B) * (A * u + B) = A * (A * (u * u) + 2 * B * u + C) + (B * B - A * C)) by ring.
    assert (0 < A * A) by (clear - A0; nra). apply Rmult_le_reg_l with (A * A); [done|]. rewrite E1, E2, E3. assert (A * (A * (u * u) + 2 * B * u + C) <= 0) by (clear - U S2'; nra). lra. }
  clear SC. specialize (RT ltac:(lra)). destruct (ec_roots t p d B) as [t1 t2]. destruct RT as [TT F].
  (* the slab *)
  set (lo := (vz p - rcopysign c (-1 / nz w)) * (-1 / nz w)). set (hi := (vz p + rcopysign c (-1 / nz w)) * (-1 / nz w)).
  assert (WZ : (w = 0 ∧ (∀ u, Rabs u <= vmag p + rs → lo <= u <= hi) ∧ 0 <= hi ∧ Rabs (vz p) <= c) ∨ (w ≠ 0 ∧ (∀ u, Rabs (vz p + u * w) <= c ↔ lo <= u <= hi) ∧ 0 <= hi ∧ - inf <= lo ∧ hi <= inf)).
  { destruct (Req_dec w 0) as [W|W].
    - left. assert (I : Rabs (vz p) < c - kHalfTolerance). { apply Rnot_le_lt. intros L. specialize (LZ ltac:(lra)). rewrite W in LZ. lra. } split; [done|]. pose proof kTiny_pos as K. destruct (zwin c (vz p) kTiny ltac:(lra) (or_introl K)) as (Q1 & Q2 & Q3). unfold lo, hi. rewrite W, nz_small. specialize (Far W). 
      assert (X : ∀ u, Rabs u <= vmag p + rs → Rabs (vz p + u * kTiny) <= c). { intros u U. apply Rle_trans with (Rabs (vz p) + Rabs (u * kTiny)); [apply Rabs_triang|]. rewrite Rabs_mult, (Rabs_pos_eq kTiny) by lra. assert (Rabs u * kTiny <= kHalfTolerance); [|lra]. apply Rle_trans with (kHalfTolerance / kTiny * kTiny); [apply Rmult_le_compat_r; lra|]. right. field. lra. }
      split; [intros u U; by apply Q1, X|]. split; [|lra]. assert (M : 0 <= vmag p + rs) by (pose proof (sqrt_pos (vdot p p)); pose proof (sqrt_pos (a * (h + c) * (a * (h + c)) + b * (h + c) * (b * (h + c)) + c * c)); unfold vmag, econe_reach; lra). apply (Q1 0), X. by rewrite Rabs_R0.
    - right. assert (KW : kAbsorb <= Rabs w) by (destruct Sz; done). split; [done|]. unfold lo, hi. rewrite nz_big by done. destruct (zwin c (vz p) w ltac:(lra) ltac:(lra)) as (Q1 & Q2 & Q3). cbv zeta in Q2, Q3. set (lo' := (vz p - rcopysign c (-1 / w)) * (-1 / w)) in *. set (hi' := (vz p + rcopysign c (-1 / w)) * (-1 / w)) in *. assert (PW : 0 < Rabs w) by (by apply Rabs_pos_lt). clearbody lo' hi'. assert (LH : lo' <= hi'). { apply Rnot_lt_le. intros N. assert ((hi' - lo') * Rabs w < 0) by (clear - N PW; nra). lra. }
      assert (KA : 0 < kAbsorb) by (unfold kAbsorb; apply Rinv_0_lt_compat, pow_lt; lra).
      assert (X : ∀ u, lo' <= u <= hi' → Rabs u <= inf). { intros u U. apply Q1 in U. assert (Rabs (u * w) <= Rabs (vz p) + c). { replace (u * w) with (- vz p + (vz p + u * w)) by ring. apply Rle_trans with (Rabs (- vz p) + Rabs (vz p + u * w)); [apply Rabs_triang|]. rewrite Rabs_Ropp. lra. } rewrite Rabs_mult in H. pose proof (Rabs_pos u) as UP. apply Rmult_le_reg_l with kAbsorb; [done|]. clear - H UP KW Near. nra. }
      split; [done|]. split; [|split; [pose proof (X lo' ltac:(lra)) as Y; apply abs_le in Y; lra|pose proof (X hi' ltac:(lra)) as Y; apply abs_le in Y; lra]]. apply Rnot_lt_le. intros N. assert (N2 : hi' * Rabs w < 0) by (clear - N PW; nra). rewrite Q3 in N2. destruct (rltb_spec w 0) as [V|V].
      + assert (E : Rabs (vz p) = - vz p) by (apply Rabs_left; lra). specialize (LZ ltac:(lra)). clear - LZ V N2 Hc T KT. nra.
      + assert (E : Rabs (vz p) = vz p) by (apply Rabs_pos_eq; lra). specialize (LZ ltac:(lra)). clear - LZ V N2 Hc T KT. nra. }
  assert (FIN : ∀ tin tout, (∀ u, S (along p d u) ↔ tin <= u <= tout) → 0 <= tout →
    let s := if rgeb (tout - tin) kHalfTolerance then tin + off else inf in (enters S kHalfTolerance p d (s - off) ∧ (¬ S p → 0 < s - off)) ∨
    (s = inf ∧ ((∀ u, 0 <= u → not_deep a b h c (along p d u)) ∨ (∀ u u', S (along p d u) → S (along p d u') → Rabs (u - u') < kHalfTolerance) ∨ (∀ u u', S (along p d u) → S (along p d u') → Rabs (u - u') <= / 2 ^ 24 * (vmag p + rs))))).
  { intros tin tout Q O. cbv zeta. destruct (rgeb_spec (tout - tin) kHalfTolerance) as [L|L].
    - left. replace (tin + off - off) with tin by ring. split; [split; intros u U|].
      + apply Q. lra.
      + rewrite Q. lra.
      + intros N. apply Rnot_le_lt. intros N2. apply N. rewrite <- P0. apply Q. lra.
    - right. split; [done|]. right; left. intros u u' U U'. apply Q in U, U'. apply Rabs_def1; lra. }
  clear LZ. destruct (rgeb_spec A 0) as [AP1|AN]; cbn [andb].
  - assert (AP2 : 0 < A) by lra. destruct (rltb_spec A 0) as [|_]; [lra|]. destruct (rgeb_spec (z + w * t1) 0) as [Z1|Z1].
    { right. split; [done|]. left. intros u U. destruct (Rle_dec (- kHalfTolerance) (above a b h (along p d u))) as [L|L]; [by left|]. right. assert (N : nappe a b h (along p d u)) by (apply above_nappe; [done|done|lra]). apply NA in N. apply (in_apex A B C z w t1 t2) in N; [|done|done|done|done|done|lra]. rewrite ZZ. unfold z in N. replace (vz p + u * w) with h by lra. rewrite Rabs_pos_eq; lra. }
    assert (NI : ∀ u, nappe a b h (along p d u) ↔ t1 <= u <= t2) by (intros u; rewrite NA; apply in_flat; try done; lra).
    assert (T2 : 0 <= t2). { apply Rnot_lt_le. intros L. pose proof (BACK t2 L ltac:(apply NI; lra)) as N. rewrite <- P0 in N. apply NI in N. lra. }
    apply FIN.
    + intros u. unfold S, econe_solid. rewrite NI, max_le, min_ge, ZZ. destruct WZ as [(W & WR & _ & I)|(W & WR & _)].
      * rewrite W, Rmult_0_r, Rplus_0_r. split; [|tauto]. intros [_ U]. assert (IN : S (along p d u)) by (split; [rewrite ZZ, W, Rmult_0_r, Rplus_0_r; done|by apply NI]). apply (solid_reach ellint a b h c Ha Hb Hc Hh) in IN. destruct (along_mag p d u Hd) as [M _]. specialize (WR u ltac:(lra)). lra.
      * rewrite WR. tauto.
    + apply min_ge. split; [|done]. destruct WZ as [(_ & _ & Q & _)|(_ & _ & Q & _)]; done.
  - assert (AN' : A < 0) by lra. destruct (rltb_spec A 0) as [_|]; [|lra]. assert (W : w ≠ 0) by (intros W; specialize (AZ W); lra). destruct WZ as [(W' & _)|(_ & WR & HI & IL & IH)]; [done|]. destruct (rltb_spec w 0) as [WN|WN]; destruct (rgtb_spec w 0) as [WP|WP]; try lra.
    + assert (NI : ∀ u, nappe a b h (along p d u) ↔ t2 <= u) by (intros u; rewrite NA; apply (in_down A B C z w t1 t2); done). rewrite (Rmin_left hi inf) by done. apply FIN; [|done]. intros u. unfold S, econe_solid. rewrite NI, max_le, ZZ, WR. tauto.
    + assert (NI : ∀ u, nappe a b h (along p d u) ↔ u <= t1) by (intros u; rewrite NA; apply (in_up A B C z w t1 t2); done). rewrite (Rmax_left lo (- inf)) by done. apply FIN.
      * intros u. unfold S, econe_solid. rewrite NI, min_ge, ZZ, WR. tauto.
      * apply min_ge. split; [done|]. apply Rnot_lt_le. intros L. pose proof (BACK t1 L ltac:(apply NI; lra)) as N. rewrite <- P0 in N. apply NI in N. lra.
Qed.
(** DistanceToIn is where the line enters the solid, to stay in it for half a tolerance at least; it is positive off the solid.
    kInfLength is given only to rays that hardly touch the solid. *)
Theorem C89_to_in p d : vdot d d = 1 → slanted a b d → vz d = 0 ∨ kAbsorb <= Rabs (vz d) → (vz d = 0 → 2 * vmag p + rs <= kHalfTolerance / kTiny) → 2 * vmag p + rs <= kAbsorb * inf → off_axis p → off_axis (along p d (vmag p - 2 * rs)) →
  let s := ec_to_in inf t p d in
  (enters S kHalfTolerance p d s ∧ (¬ S p → 0 < s)) ∨ (s = inf ∧ hardly a b h c p d).
Proof using Ha Hb Hc Hh.
  intros Hd Hs Sz Far Near X1 X2. cbv zeta. pose proof kHalfTolerance_pos as T. assert (RP : 0 <= rs) by apply sqrt_pos. assert (CR : c <= rs). { unfold econe_reach. rewrite <- (sqrt_square c) at 1 by (unfold kTolerance in *; lra). apply sqrt_le_1_alt. pose proof (Rle_0_sqr (a * (h + c))) as Q1. pose proof (Rle_0_sqr (b * (h + c))) as Q2. unfold Rsqr in *. lra. }
  assert (VP : ∀ q : v3, Rabs (vz q) <= vmag q) by (intros q; unfold vmag; rewrite <- (sqrt_square (Rabs (vz q))) by apply Rabs_pos; apply sqrt_le_1_alt; rewrite <- Rabs_mult, Rabs_pos_eq by (pose proof (Rle_0_sqr (vz q)) as Q; done); unfold vdot; pose proof (Rle_0_sqr (vx q)) as Q1; pose proof (Rle_0_sqr (vy q)) as Q2; unfold Rsqr in *; lra).
  pose proof (sqrt_pos (vdot p p)) as MP. fold (vmag p) in MP. assert (RE : ec_rsph t = rs). { unfold t, mk_econe. destruct (rltb_spec a (2 * kTolerance)); [lra|]. destruct (rltb_spec b (2 * kTolerance)); [lra|]. destruct (rltb_spec h (2 * kTolerance)); [lra|]. destruct (rltb_spec c (2 * kTolerance)); [lra|]. cbn. rewrite Rmin_right by lra. done. }
  unfold ec_to_in. cbv zeta. set (off := ec_offset t p d). change (vadd p (vscale off d)) with (along p d off).
  assert (OFF : (off = 0 ∨ off = vmag p - 2 * rs) ∧ 0 <= off <= vmag p ∧ (∀ u, 0 <= u < off → rs < vmag (along p d u))).
  { unfold off, ec_offset. rewrite RE. destruct (rgtb_spec (vdot p p) (1024 * rs * rs)) as [L|L]; cbn [andb]; [destruct (rltb (vdot d p) 0)|].
    - split; [by right|]. assert (32 * rs < vmag p). { unfold vmag. rewrite <- (sqrt_square (32 * rs)) by lra. apply sqrt_lt_1_alt. split; [pose proof (Rle_0_sqr (32 * rs)) as Q; done|]. replace (32 * rs * (32 * rs)) with (1024 * rs * rs) by ring. done. } split; [lra|]. intros u U. destruct (along_mag p d u Hd) as [_ M]. rewrite (Rabs_pos_eq u) in M by lra. unfold kTolerance in *. lra.
    - split; [by left|]. split; [lra|]. intros; lra.
    - split; [by left|]. split; [lra|]. intros; lra. }
  destruct OFF as (O1 & O2 & O3). clearbody off. set (q := along p d off). assert (MQ : vmag q <= 2 * vmag p). { destruct (along_mag q d (- off) Hd) as [_ M]. rewrite Rabs_Ropp, (Rabs_pos_eq off) in M by lra. replace (along q d (- off)) with p in M by (apply v3_eq; cbn; ring). lra. }
  assert (XQ : off_axis q) by (unfold q; destruct O1 as [-> | ->]; [replace (along p d 0) with p by (apply v3_eq; cbn; ring); done|done]). pose proof (VP q) as VQ.
  assert (SH : ∀ u, along p d u = along q d (u - off)) by (intros u; apply v3_eq; cbn; ring).
  destruct (from_spec q d off Hd Hs Sz (λ Z, ltac:(specialize (Far Z); lra)) ltac:(lra) XQ) as [[[E1 E2] E3]|[E H]]; set (s := ec_to_in_from inf t q d off) in *.
  - left. split; [split; intros u U; rewrite SH; [apply E1|apply E2]; lra|]. intros N. destruct (Req_dec off 0) as [Z|Z]; [assert (QP : q = p) by (unfold q; rewrite Z; apply v3_eq; cbn; ring); rewrite QP in E3; specialize (E3 N); lra|].
    apply Rnot_le_lt. intros L. apply N. assert (QS : S q). { apply Decidable.not_not; [|intros Q; specialize (E3 Q); lra]. unfold Decidable.decidable, S, econe_solid, nappe. destruct (Rle_dec (Rabs (vz q)) c); destruct (Rle_dec (ell a b q) (h - vz q)); tauto. }
    assert (SS : S (along q d (s - off))) by (apply E1; lra). pose proof (C89_convex a b h c) as CV. assert (PE : p = vadd (vscale (1 - - s / (off - s)) (along q d (s - off))) (vscale (- s / (off - s)) q)) by (unfold q; apply v3_eq; cbn; field; lra). rewrite PE. apply CV; [done|done|]. split; [apply Rmult_le_reg_r with (off - s); [lra|]|apply Rmult_le_reg_r with (off - s); [lra|]]; replace (- s / (off - s) * (off - s)) with (- s) by (field; lra); lra.
  - right. split; [done|]. destruct H as [H|[H|H]].
    + left. intros u U. destruct (Rlt_le_dec u off) as [L|L]; [|rewrite SH; apply H; lra]. specialize (O3 u ltac:(lra)). destruct (Rle_dec (- kHalfTolerance) (above a b h (along p d u))) as [B1|B1]; [by left|]. destruct (Rle_dec (c - kHalfTolerance) (Rabs (vz (along p d u)))) as [B2|B2]; [by right|]. exfalso.
      assert (IN : S (along p d u)) by (split; [lra|]; apply above_nappe; [done|done|lra]). apply (solid_reach ellint a b h c Ha Hb Hc Hh) in IN. lra.
    + right; left. intros u u'. rewrite !SH. intros U U'. replace (u - u') with (u - off - (u' - off)) by ring. by apply H.
    + right; right. intros u u'. rewrite !SH. intros U U'. specialize (H _ _ U U'). replace (u - u') with (u - off - (u' - off)) by ring. apply Rle_trans with (1 := H). apply Rmult_le_compat_l; [lra|]. lra.
Qed.
End Cone.
Print Assumptions C89_to_in.
(** A ray that gets deep and stays in the solid long enough is not missed. *)
Theorem C89_to_in_hit ellint inf a b h c p d v u u' : 2 * kTolerance <= a → 2 * kTolerance <= b → 2 * kTolerance <= c → c <= h →
  vdot d d = 1 → slanted a b d → vz d = 0 ∨ kAbsorb <= Rabs (vz d) → (vz d = 0 → 2 * vmag p + econe_reach a b h c <= kHalfTolerance / kTiny) → 2 * vmag p + econe_reach a b h c <= kAbsorb * inf →
  off_axis p → off_axis (along p d (vmag p - 2 * econe_reach a b h c)) →
  0 <= v → above a b h (along p d v) < - kHalfTolerance → Rabs (vz (along p d v)) < c - kHalfTolerance →
  econe_solid a b h c (along p d u) → econe_solid a b h c (along p d u') → kHalfTolerance <= Rabs (u - u') → / 2 ^ 24 * (2 * vmag p + econe_reach a b h c) < Rabs (u - u') →
  enters (econe_solid a b h c) kHalfTolerance p d (ec_to_in inf (mk_econe ellint a b h c) p d).
Proof.
  intros Ha Hb Hc Hh Hd Hs Sz Far Near X1 X2 V1 V2 V3 U U' L1 L2. destruct (C89_to_in ellint inf a b h c Ha Hb Hc Hh p d Hd Hs Sz Far Near X1 X2) as [[E _]|[_ [H|[H|H]]]]; [done|exfalso..].
  - destruct (H v V1); lra.
  - specialize (H u u' U U'). lra.
  - specialize (H u u' U U'). lra.
Qed.
Print Assumptions C89_to_in_hit.
(** From 5 beside the cone of slope 1 with the apex at 2 cut at 1, towards its axis: 3, and the hypotheses hold. *)
Example cone_entering ellint : let p := V3 5 0 0 in let d := V3 (-1) 0 0 in ec_to_in (10 ^ 20) (mk_econe ellint 1 1 2 1) p d = 3.
Proof.
  intros p d. assert (T : 0 < kTolerance <= / 1000) by (unfold kTolerance; lra). assert (HT : 0 < kHalfTolerance <= / 1000) by (unfold kHalfTolerance; lra).
  assert (EL : ∀ u, ell 1 1 (along p d u) = Rabs (5 - u)). { intros u. unfold ell, along, p, d. cbn [vadd vscale vx vy]. replace ((5 + u * -1) / 1 * ((5 + u * -1) / 1) + (0 + u * 0) / 1 * ((0 + u * 0) / 1)) with (Rsqr (5 - u)) by (unfold Rsqr; field). apply sqrt_Rsqr_abs. }
  assert (Z : ∀ u, vz (along p d u) = 0) by (intros u; unfold along, p, d; cbn; ring). assert (IN : ∀ u, econe_solid 1 1 2 1 (along p d u) ↔ 3 <= u <= 7) by (intros u; unfold econe_solid, nappe; rewrite EL, Z, Rabs_R0, BoxProofs.abs_le; lra).
  assert (MP : vmag p = 5) by (unfold vmag, vdot, p; cbn [vx vy vz]; replace (5 * 5 + 0 * 0 + 0 * 0) with (5 * 5) by ring; apply sqrt_square; lra).
  assert (RE : 0 <= econe_reach 1 1 2 1 <= 50). { split; [apply sqrt_pos|]. unfold econe_reach. rewrite <- (sqrt_square 50) by lra. apply sqrt_le_1_alt. lra. } assert (RE' : 1 <= econe_reach 1 1 2 1). { unfold econe_reach. rewrite <- sqrt_1 at 1. apply sqrt_le_1_alt. lra. }
  assert (TL : tilt 1 1 >= / 2). { unfold tilt. rewrite Rmin_left by lra. apply Rle_ge. apply Rmult_le_reg_r with (R_sqrt.sqrt (1 + 1 * 1)); [apply sqrt_lt_R0; lra|]. unfold Rdiv. rewrite Rmult_assoc, Rinv_l by (apply Rgt_not_eq, sqrt_lt_R0; lra). assert (R_sqrt.sqrt (1 + 1 * 1) <= 2); [|lra]. rewrite <- (sqrt_square 2) by lra. apply sqrt_le_1_alt. lra. }
  destruct (C89_to_in_hit ellint (10 ^ 20) 1 1 2 1 p d 5 3 7) as [E1 E2]; try lra.
  - unfold vdot, d. cbn. ring.
  - unfold slanted. replace (vz d) with 0 by done. rewrite !Rmult_0_r, Rminus_0_r. apply Rabs_pos.
  - by left.
  - intros _. rewrite MP. unfold kHalfTolerance, kTiny, kTolerance. lra.
  - rewrite MP. unfold kAbsorb. lra.
  - right. unfold p. cbn [vx vy]. rewrite Rabs_R0, Rabs_pos_eq; lra.
  - right. rewrite MP. unfold along, p, d. cbn [vadd vscale vx vy]. rewrite (Rabs_pos_eq (5 + _)) by lra. pose proof (Rabs_pos (0 + (5 - 2 * econe_reach 1 1 2 1) * 0)). lra.
  - unfold above. rewrite EL, Z. replace (5 - 5) with 0 by ring. rewrite Rabs_R0. lra.
  - rewrite Z, Rabs_R0. lra.
  - apply IN. lra.
  - apply IN. lra.
  - rewrite Rabs_left; lra.
  - rewrite MP, Rabs_left; lra.
  - set (s := ec_to_in _ _ _ _) in *. pose proof (E1 s ltac:(lra)) as S1. apply IN in S1. apply Rle_antisym; [|lra]. apply Rnot_lt_le. intros L. apply (E2 3 L). apply IN. lra.
Qed.
