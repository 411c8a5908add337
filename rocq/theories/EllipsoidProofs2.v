From Coq Require Import Reals Lra Lia Bool Psatz.
From stdpp Require Import base list option numbers tactics.
From Verif Require Import Real3 AABBModel AABBProofs BoxModel BoxProofs PlanesModel TetModel ConeModel ConeSpec ConeProofs EllTubeModel EllTubeSpec EllTubeProofs EllTubeProofs2 EllTubeProofs3 EllTubeProofs4 EllipsoidModel EllipsoidSpec EllipsoidProofs.
Import stdpp.list.
Local Open Scope R_scope.

Section Shape.
Variables A B C zb zt : R.
Hypothesis HA : 2 * kTolerance <= A.
Hypothesis HB : 2 * kTolerance <= B.
Hypothesis HC : 2 * kTolerance <= C.
Hypothesis Hz : - C <= zb < zt /\ zt <= C.
Notation t := (mk_ellipsoid A B C zb zt).
Notation m := (es_short A B C).
Notation c := (m / C).
Notation f := (ball_at A B C).
Notation h := kHalfTolerance.
Notation solid := (es_solid A B C zb zt).
Notation rs := (Rmax A (Rmax B C)).
Notation dim := (1 / 2 * (zt * c - zb * c)).
Notation pzc p := (vz p * c - 1 / 2 * (zt * c + zb * c)).
Notation fields := (fields A B C zb zt HA HB HC Hz).
Notation es_pos := (es_pos A B C zb zt HA HB HC Hz).
Notation c_pos := (c_pos A B C zb zt HA HB HC Hz).

Lemma rs_ge : A <= rs /\ B <= rs /\ C <= rs /\ 0 < rs.
Proof using HA HB HC Hz. pose proof es_pos as (A0 & _). pose proof (Rmax_l A (Rmax B C)). pose proof (Rmax_r A (Rmax B C)). pose proof (Rmax_l B C). pose proof (Rmax_r B C). lra. Qed.
Lemma solid_mag q : solid q -> vmag q <= rs.
Proof using HA HB HC Hz.
  intros [_ F]. apply f_le_1 in F. pose proof rs_ge as (RA & RB & RC & R0). pose proof es_pos as (A0 & B0 & C0 & _). apply sqr_le_le; [lra|]. rewrite vmag_sqr.
  assert (Q : ∀ a L, 0 < L <= rs -> a * a <= rs * rs * (a / L * (a / L))). { intros a L HL. assert (E : a / L * (a / L) * (L * L) = a * a) by (field; lra). set (b := a / L) in *. clearbody b. assert (0 <= b * b) by nra. assert (L * L <= rs * rs) by nra. rewrite <- E. clear - H H0. nra. }
  pose proof (Q (vx q) A ltac:(lra)). pose proof (Q (vy q) B ltac:(lra)). pose proof (Q (vz q) C ltac:(lra)). unfold vdot. set (a := vx q / A * (vx q / A)) in *. set (b := vy q / B * (vy q / B)) in *. set (k := vz q / C * (vz q / C)) in *. assert (rs * rs * (a + b + k) <= rs * rs * 1) by (apply Rmult_le_compat_l; [nra|done]). lra.
Qed.
Lemma f_mag_le p : m * f p <= vmag p.
Proof using HA HB HC Hz.
  pose proof (f_diff A B C zb zt HA HB HC Hz p vzero) as E. pose proof es_pos as (A0 & B0 & C0 & _). assert (Z0 : f vzero = 0) by (unfold ball_at; cbn [vx vy vz vzero]; replace (0 / A * (0 / A) + 0 / B * (0 / B) + 0 / C * (0 / C)) with 0 by (field; lra); apply sqrt_0). rewrite Z0, Rminus_0_r in E. unfold vdist in E. replace (vsub p vzero) with p in E by (apply v3_eq; cbn; ring). done.
Qed.
Section Ray.
Variables p d : v3.
Hypothesis Hd : vdot d d = 1.
Definition rvv : R := vdot (es_scaled t d) (es_scaled t d).
Definition rpv : R := vdot (es_scaled t p) (es_scaled t d).
Definition rrr : R := vdot (es_scaled t p) (es_scaled t p).
Lemma vv_pos : 0 < rvv <= 1.
Proof using HA HB HC Hz Hd.
  unfold rvv. rewrite scaled_rr by done. pose proof es_pos as (A0 & B0 & C0 & _ & M0 & _). pose proof (f_mag_le d) as L. pose proof (f_nonneg A B C d) as F0. assert (D1 : vmag d = 1) by (unfold vmag; rewrite Hd; apply sqrt_1). rewrite D1 in L.
  assert (FP : 0 < f d). { destruct F0 as [?|E]; [done|]. exfalso. symmetry in E. pose proof (f_sqr A B C d) as S. rewrite E in S. pose proof (Rle_0_sqr (vx d / A)) as X. pose proof (Rle_0_sqr (vy d / B)) as Y. pose proof (Rle_0_sqr (vz d / C)) as W. unfold Rsqr in *.
    assert (K : ∀ a L, 0 < L -> a / L * (a / L) = 0 -> a = 0). { intros a L' HL Q. replace a with (a / L' * L') by (field; lra). assert (a / L' = 0) as -> by (by apply Rsqr_0_uniq). ring. }
    assert (X0 : vx d = 0) by (apply (K _ A); lra). assert (Y0 : vy d = 0) by (apply (K _ B); lra). assert (Z0 : vz d = 0) by (apply (K _ C); lra). unfold vdot in Hd. rewrite X0, Y0, Z0 in Hd. lra. }
  assert (0 < m * f d) by (by apply Rmult_lt_0_compat). split; nra.
Qed.
Lemma f_along u : m * m * (f (along p d u) * f (along p d u) - 1) = rvv * (u * u) + 2 * rpv * u + (rrr - m * m).
Proof using HA HB HC Hz.
  pose proof es_pos as (A0 & B0 & C0 & _). unfold rvv, rpv, rrr. rewrite !scaled_dot by done. rewrite f_sqr. unfold vdot, unscaled, along. cbn [vx vy vz vadd vscale]. field. lra.
Qed.
Lemma f_le_quad u : f (along p d u) <= 1 <-> rvv * (u * u) + 2 * rpv * u + (rrr - m * m) <= 0.
Proof using HA HB HC Hz.
  rewrite <- f_along. pose proof es_pos as (_ & _ & _ & _ & M0 & _). pose proof (f_nonneg A B C (along p d u)) as F0. set (a := f (along p d u)) in *. clearbody a. assert (MM : 0 < m * m) by (by apply Rmult_lt_0_compat). split; intros G.
  - assert (a * a - 1 <= 0) by nra. clear - H MM. nra.
  - apply Rnot_lt_le. intros N. assert (0 < a * a - 1) by nra. assert (0 < m * m * (a * a - 1)) by (by apply Rmult_lt_0_compat). lra.
Qed.
Lemma z_win u : zb <= vz (along p d u) <= zt <-> Rabs (pzc p + u * (vz d * c)) <= dim.
Proof using HA HB HC Hz.
  pose proof c_pos as CP. unfold along. cbn [vz vadd vscale]. rewrite abs_le. replace (pzc p + u * (vz d * c)) with (c * (vz p + u * vz d - 1 / 2 * (zt + zb))) by (unfold Rdiv; ring). replace dim with (c * (1 / 2 * (zt - zb))) by (unfold Rdiv; ring). set (k := c) in *. clearbody k. clear - CP. split; intros []; split; nra.
Qed.
Lemma z_pos : 0 < dim.
Proof using HA HB HC Hz. pose proof c_pos as CP. replace dim with (c * (1 / 2 * (zt - zb))) by (unfold Rdiv; ring). apply Rmult_lt_0_compat; lra. Qed.
Theorem to_out_spec inf : 2 * rs <= inf -> solid p ->
  leaves solid p d (es_to_out inf t p d) \/ (es_to_out inf t p d = 0 /\ 1 - f p <= 2 * kEpsilon /\ ∀ u, 0 <= u -> solid (along p d u) -> u <= m / 2 ^ 24).
Proof using HA HB HC Hz Hd.
  intros Hinf Hp. pose proof es_pos as (A0 & B0 & C0 & _ & M0 & _). pose proof c_pos as CP. pose proof fields as (_ & _ & _ & _ & _ & _ & _ & _ & RS & _ & _ & SZ & MI & DI & _). pose proof vv_pos as VV. pose proof kEpsilon_pos as KE.
  assert (Hc : Rmax (es_distR t p) (es_distZ t p) <= h). { pose proof Hp as Q. apply solid_eq in Q; [|done..]. pose proof kHalfTolerance_pos. apply max_le. rewrite es_distZ_e by done. destruct (es_distR_e A B C zb zt HA HB HC Hz p) as (E & _). rewrite E. lra. }
  unfold es_to_out. fold rvv rpv rrr. unfold es_distR, es_distZ in Hc. fold rrr in Hc. destruct (rgtb_spec (Rmax (es_q1 t * rrr - es_q2 t) (Rabs (vz (es_scaled t p) - es_mid t) - es_dim t)) h); [lra|]. clear Hc.
  rewrite RS, MI, DI. unfold es_scaled. cbn [vz]. rewrite SZ. 
  set (b := rpv / rvv). set (k := (rrr - m * m) / rvv). destruct Hp as [Hpz Hpf].
  assert (Q : ∀ u, f (along p d u) <= 1 <-> 1 * (u * u) + 2 * b * u + k <= 0). { intros u. rewrite f_le_quad. assert (E : rvv * (1 * (u * u) + 2 * b * u + k) = rvv * (u * u) + 2 * rpv * u + (rrr - m * m)) by (unfold b, k; field; lra). rewrite <- E. set (x := 1 * (u * u) + 2 * b * u + k). clearbody x. clear - VV. split; intros; nra. }
  assert (P0 : along p d 0 = p) by (apply v3_eq; cbn; ring).
  assert (K0 : k <= 0). { pose proof (Q 0) as G. rewrite P0 in G. apply G in Hpf. lra. }
  assert (TR : ∀ u, 0 <= u -> (f (along p d u) <= 1 <-> u <= - b + R_sqrt.sqrt (Rabs (b * b - k)))). { intros u U. rewrite Q, quad_out by lra. rewrite Rmult_1_l, Rmult_1_l. rewrite Rabs_pos_eq by nra. split; lra. }
  assert (T0 : 0 <= - b + R_sqrt.sqrt (Rabs (b * b - k))) by (apply TR; [lra|]; by rewrite P0).
  set (tr := - b + R_sqrt.sqrt (Rabs (b * b - k))) in *.
  destruct (rleb_spec (b * b - k) (2 * rrr * rvv * kEpsilon)) as [SC|SC].
  - right. split; [done|]. assert (RM : 0 <= rrr <= m * m). { unfold rrr. rewrite scaled_rr by done. pose proof (f_nonneg A B C p) as F0. assert (0 <= m * f p <= m) by (split; [nra|]; replace m with (m * 1) at 2 by ring; apply Rmult_le_compat_l; lra). clear - H. nra. }
    assert (EB : 2 * rrr * rvv * kEpsilon <= 2 * (m * m) * kEpsilon). { apply Rmult_le_compat_r; [lra|]. rewrite !Rmult_assoc. apply Rmult_le_compat_l; [lra|]. clear - RM VV. nra. }
    assert (DM : b * b - k <= 2 * (m * m) * kEpsilon) by lra. split.
    + assert (KV : - (rrr - m * m) <= 2 * (m * m) * kEpsilon). { assert (E : k * rvv = rrr - m * m) by (unfold k; field; lra). rewrite <- E. assert (0 <= b * b) by nra. assert (- k <= 2 * (m * m) * kEpsilon) by lra. clear - H0 VV K0. nra. }
      unfold rrr in KV. rewrite scaled_rr in KV by done. pose proof (f_nonneg A B C p) as F0. apply Rmult_le_reg_l with (m * m); [by apply Rmult_lt_0_compat|]. assert (0 <= m * m * (f p * (1 - f p))) by (apply Rmult_le_pos; [nra|]; apply Rmult_le_pos; lra). lra.
    + intros u U [_ S]. apply TR in S; [|done]. apply Rle_trans with tr; [done|]. set (D := b * b - k) in *. assert (D0 : 0 <= D) by (unfold D; nra). unfold tr. rewrite Rabs_pos_eq by done. assert (SS : R_sqrt.sqrt D * R_sqrt.sqrt D = D) by (by apply sqrt_sqrt). pose proof (sqrt_pos D) as S0. set (s := R_sqrt.sqrt D) in *. assert (BS : - b <= s) by (apply Rnot_lt_le; intros N; unfold D in SS; clear - N SS S0 K0; nra).
      apply Rle_trans with (2 * s); [lra|]. assert (P24 : 0 < 2 ^ 24) by (apply pow_lt; lra). assert (KE2 : 8 * kEpsilon <= / 2 ^ 24 * / 2 ^ 24). { unfold kEpsilon. rewrite <- Rinv_mult. replace (2 ^ 24 * 2 ^ 24) with (2 ^ 48) by (rewrite <- pow_add; done). replace (2 ^ 52) with (2 ^ 48 * 16) by (replace 16 with (2 ^ 4) by ring; rewrite <- pow_add; done). assert (0 < 2 ^ 48) by (apply pow_lt; lra). rewrite Rinv_mult. assert (0 < / 2 ^ 48) by (by apply Rinv_0_lt_compat). lra. }
      assert (I24 : 0 < / 2 ^ 24) by (by apply Rinv_0_lt_compat). unfold Rdiv. set (e := / 2 ^ 24) in *. clearbody e. apply sqr_le_le; [nra|]. replace (2 * s * (2 * s)) with (4 * D) by (rewrite <- SS; ring). assert (4 * D <= m * m * (8 * kEpsilon)) by lra. assert (m * m * (8 * kEpsilon) <= m * m * (e * e)) by (apply Rmult_le_compat_l; [nra|done]). lra.
  - left. set (w := vz d * c). set (tz := if negb (reqb w 0) then (rcopysign dim w - pzc p) / w else inf).
    assert (PZ : Rabs (pzc p) <= dim). { pose proof (z_win 0) as G. rewrite P0, Rmult_0_l, Rplus_0_r in G. by apply G. }
    assert (TZ : ∀ u, 0 <= u -> (w = 0 /\ tz = inf) \/ (zb <= vz (along p d u) <= zt <-> u <= tz)). { intros u Hu. unfold tz. destruct (reqb_spec w 0) as [W|W]; [by left|]. right. cbn [negb]. rewrite z_win. fold w. by apply z_out. }
    assert (TZ0 : 0 <= tz). { pose proof rs_ge. destruct (TZ 0 (Rle_refl 0)) as [[_ ->]|H0]; [lra|]. apply H0. by rewrite P0. }
    assert (L : w = 0 -> tz = inf -> tr <= tz).
    { intros W ->. assert (S : solid (along p d tr)) by (split; [apply z_win; fold w; rewrite W, Rmult_0_r, Rplus_0_r; done|apply TR; lra]). apply solid_mag in S. pose proof (solid_mag p (conj Hpz Hpf)) as Q0. destruct (along_mag p d tr Hd) as [G _]. rewrite Rabs_pos_eq in G by done. lra. }
    split; [by apply min_ge|]. split.
    + intros u [U0 U1]. apply min_ge in U1. destruct U1 as [U1 U2]. split; [|by apply TR]. destruct (TZ u U0) as [[W _]|E]; [apply z_win; fold w; rewrite W, Rmult_0_r, Rplus_0_r; done|by apply E].
    + intros u U [Q1 Q2]. assert (U0 : 0 <= u) by (apply Rle_trans with (Rmin tz tr); [by apply min_ge|lra]). apply TR in Q2; [|done]. apply min_lt in U. destruct U as [U|U]; [|lra]. destruct (TZ u U0) as [[W E]|E]; [specialize (L W E); lra|]. apply E in Q1. lra.
Qed.
Theorem to_out_outside inf : ¬ es_moved A B C zb zt h p -> es_to_out inf t p d = -1.
Proof using HA HB HC Hz.
  intros N. unfold es_to_out. rewrite <- (es_contains_moved A B C zb zt HA HB HC Hz p) in N. unfold es_contains, es_kernel in N. cbn [snd] in N. unfold es_distR, es_distZ in N. rewrite Rmax_comm in N. destruct (rgtb _ h); [done|]. by destruct N.
Qed.
End Ray.
End Shape.
