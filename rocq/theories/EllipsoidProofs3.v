From Coq Require Import Reals Lra Lia Bool Psatz.
From stdpp Require Import base list option numbers tactics.
From Verif Require Import Real3 AABBModel AABBProofs BoxModel BoxProofs PlanesModel TetModel ConeModel ConeSpec ConeProofs EllTubeModel EllTubeSpec EllTubeProofs EllTubeProofs2 EllTubeProofs3 EllTubeProofs4 EllipsoidModel EllipsoidSpec EllipsoidProofs EllipsoidProofs2.
Import stdpp.list.
Local Open Scope R_scope.

Section Shape.
Variables A B C zb zt : R.
Hypothesis HA : 2 * kTolerance <= A.
Hypothesis HB : 2 * kTolerance <= B.
Hypothesis HC : 2 * kTolerance <= C.
Hypothesis Hz : - C <= zb < zt /\ zt <= C.
Notation t := (mk_ellipsoid A B C zb zt).
Notation m := (es_short A B C).
Notation c := (m / C).
Notation f := (ball_at A B C).
Notation h := kHalfTolerance.
Notation solid := (es_solid A B C zb zt).
Notation rs := (Rmax A (Rmax B C)).
Notation dim := (1 / 2 * (zt * c - zb * c)).
Notation pzc p := (vz p * c - 1 / 2 * (zt * c + zb * c)).
Notation fields := (fields A B C zb zt HA HB HC Hz).
Notation es_pos := (es_pos A B C zb zt HA HB HC Hz).
Notation c_pos := (c_pos A B C zb zt HA HB HC Hz).
Notation solid_mag := (solid_mag A B C zb zt HA HB HC Hz).

Lemma shallow_cut q e : - h <= Rabs (pzc q) - dim -> es_shallow A B C zb zt e q.
Proof using HA HB HC Hz.
  rewrite (mid_dist A B C zb zt HA HB HC Hz). pose proof c_pos as CP. unfold cut_at, Rmax. destruct (Rle_dec _ _); intros G; [right; left|left]; lra.
Qed.
Lemma shallow_side q e : m - h <= m * f q -> es_shallow A B C zb zt e q.
Proof using. clear. intros G. right. right. left. lra. Qed.
Lemma not_solid_shallow q e : ¬ solid q -> es_shallow A B C zb zt e q.
Proof using HA HB HC Hz.
  intros N. pose proof kHalfTolerance_pos as H0. pose proof es_pos as (_ & _ & _ & _ & M0 & _). destruct (Rle_dec (f q) 1) as [G|G].
  - apply shallow_cut. rewrite (mid_dist A B C zb zt HA HB HC Hz). apply Rnot_lt_le. intros L. apply N. apply solid_eq; [done..|]. split; [lra|]. replace m with (m * 1) at 2 by ring. apply Rmult_le_compat_l; lra.
  - apply shallow_side. assert (m * 1 <= m * f q) by (apply Rmult_le_compat_l; lra). lra.
Qed.
Lemma shallow_more q e e' : e <= e' -> es_shallow A B C zb zt e q -> es_shallow A B C zb zt e' q.
Proof using. clear. intros L [G|[G|[G|G]]]; [by left|right; by left|right; right; by left|right; right; right; lra]. Qed.
Theorem from_spec inf p d off : vdot d d = 1 -> vz d = 0 \/ kAbsorb <= Rabs (c * vz d) -> (vz d = 0 -> vmag p + rs <= h / kTiny) ->
  let s := es_to_in_from inf t p d off in
  (enters solid h p d (s - off) /\ (¬ solid p -> 0 < s - off)) \/
  (s = inf /\ ((∀ u, 0 <= u -> es_shallow A B C zb zt (2 * kEpsilon * (vmag p * vmag p)) (along p d u)) \/ (∀ u u', solid (along p d u) -> solid (along p d u') -> Rabs (u - u') <= h))).
Proof using HA HB HC Hz.
  intros Hd Sz Far. pose proof kHalfTolerance_pos as Hh. pose proof es_pos as (A0 & B0 & C0 & HM & M0 & _). pose proof c_pos as CP. pose proof fields as (_ & _ & _ & _ & _ & _ & _ & _ & RS & _ & _ & SZ & MI & DI & _). pose proof (vv_pos A B C zb zt HA HB HC Hz d Hd) as VV.
  pose proof (f_along A B C zb zt HA HB HC Hz p d) as FA. pose proof (f_le_quad A B C zb zt HA HB HC Hz p d) as FQ. pose proof (z_win A B C zb zt HA HB HC Hz p d) as ZW. pose proof (z_pos A B C zb zt HA HB HC Hz) as ZP.
  assert (DZ : ∀ q, es_distZ t q = Rabs (pzc q) - dim) by (intros q; rewrite es_distZ_e by done; symmetry; by apply mid_dist).
  assert (DR : es_distR t p >= - h <-> m - h <= m * f p). { destruct (es_distR_e A B C zb zt HA HB HC Hz p) as (_ & _ & E). rewrite <- E. split; lra. }
  unfold es_to_in_from. change (vdot (es_scaled t d) (es_scaled t d)) with (rvv A B C zb zt d). change (vdot (es_scaled t p) (es_scaled t d)) with (rpv A B C zb zt p d). change (vdot (es_scaled t p) (es_scaled t p)) with (rrr A B C zb zt p).
  assert (RRM : 0 <= rrr A B C zb zt p <= vmag p * vmag p). { unfold rrr. rewrite scaled_rr by done. pose proof (f_mag_le A B C zb zt HA HB HC Hz p). pose proof (f_nonneg A B C p). assert (0 <= m * f p) by (apply Rmult_le_pos; lra). clear - H H1. set (a := m * f p) in *. clearbody a. nra. }
  assert (E0 : m * m * (f p * f p - 1) = rrr A B C zb zt p - m * m). { unfold rrr. rewrite scaled_rr by done. ring. }
  assert (DRE : es_q1 t * rrr A B C zb zt p - es_q2 t = es_distR t p) by done. rewrite DRE. clear DRE.
  set (vv := rvv A B C zb zt d) in *. set (pv := rpv A B C zb zt p d) in *. set (rr := rrr A B C zb zt p) in *. rewrite RS, MI, DI. assert (PZ : vz (es_scaled t p) = vz p * c) by (unfold es_scaled; cbn [vz]; by rewrite SZ). assert (WZ : vz (es_scaled t d) = vz d * c) by (unfold es_scaled; cbn [vz]; by rewrite SZ). rewrite PZ, WZ. clear PZ WZ.
  set (pz := pzc p) in *. set (w := vz d * c) in *. set (Z := dim) in *.
  assert (W0 : w = 0 <-> vz d = 0). { unfold w. split; [|intros ->; ring]. intros G. apply Rmult_integral in G. destruct G; lra. } assert (Sz' : w = 0 \/ kAbsorb <= Rabs w). { destruct Sz as [Sz|Sz]; [left; by apply W0|]. right. unfold w. by rewrite Rmult_comm. } clear Sz.
  assert (HMh : 0 <= m - h) by (unfold kHalfTolerance; pose proof kTolerance_pos; lra).
  change (R_sqrt.sqrt (Rabs (pv * pv - vv * (rr - m * m)))) with (R_sqrt.sqrt (Rabs (pv * pv - vv * (rr - m * m)))).
  change ((pz - rcopysign Z (-1 / nz w)) * (-1 / nz w)) with (zlow Z pz w). change ((pz + rcopysign Z (-1 / nz w)) * (-1 / nz w)) with (zhigh Z pz w).
  destruct (rgeb (Rabs pz - Z) (- h) && rgeb (pz * w) 0) eqn:L1.
  { cbn [orb]. right. split; [done|]. left. intros u Hu. apply andb_true_iff in L1. destruct L1 as [L1 L2]. destruct (rgeb_spec (Rabs pz - Z) (- h)) as [G1|]; [|discriminate]. destruct (rgeb_spec (pz * w) 0) as [G2|]; [|discriminate]. apply shallow_cut. fold Z.
    replace (pzc (along p d u)) with (pz + u * w) by (unfold pz, w, along; cbn [vz vadd vscale]; ring). assert (Rabs pz <= Rabs (pz + u * w)); [|lra]. apply Rsqr_le_abs_0. unfold Rsqr. clear - G2 Hu. assert (0 <= u * (pz * w)) by nra. assert (0 <= (u * w) * (u * w)) by nra. lra. }
  destruct (rgeb (es_distR t p) (- h) && rgeb pv 0) eqn:L2.
  { cbn [orb]. right. split; [done|]. left. intros u Hu. apply andb_true_iff in L2. destruct L2 as [L2 L3]. destruct (rgeb_spec (es_distR t p) (- h)) as [G1|]; [|discriminate]. destruct (rgeb_spec pv 0) as [G2|]; [|discriminate]. apply DR in G1. apply shallow_side. apply Rle_trans with (m * f p); [done|]. apply Rmult_le_compat_l; [lra|]. apply sqr_le_le; [apply f_nonneg|].
    apply Rmult_le_reg_l with (m * m); [by apply Rmult_lt_0_compat|]. pose proof (FA u) as G. assert (0 <= vv * (u * u)) by (apply Rmult_le_pos; [lra|apply Rle_0_sqr]). assert (0 <= pv * u) by (apply Rmult_le_pos; lra). lra. }
  assert (LZ : Z - h <= Rabs pz -> pz * w < 0). { intros G. destruct (rgeb_spec (Rabs pz - Z) (- h)); [|lra]. destruct (rgeb_spec (pz * w) 0); [discriminate|lra]. }
  assert (LR : m - h <= m * f p -> pv < 0). { intros G. apply DR in G. destruct (rgeb_spec (es_distR t p) (- h)); [|lra]. destruct (rgeb_spec pv 0); [discriminate|lra]. } clear L1 L2. cbn [orb].
  set (k := rr - m * m) in *.
  destruct (rleb_spec (pv * pv - vv * k) (2 * rr * vv * kEpsilon)) as [SC|SC].
  { cbn [orb]. right. split; [done|]. left. intros u _. right. right. right. pose proof (FA u) as Eu. pose proof kEpsilon_pos as KE. assert (F : - (2 * rr * kEpsilon) <= vv * (u * u) + 2 * pv * u + k).
    { apply Rmult_le_reg_l with vv; [lra|]. assert (vv * (vv * (u * u) + 2 * pv * u + k) = (vv * u + pv) * (vv * u + pv) - (pv * pv - vv * k)) by ring. pose proof (Rle_0_sqr (vv * u + pv)) as G. unfold Rsqr in G. lra. }
    rewrite <- Eu in F. assert (2 * kEpsilon * rr <= 2 * kEpsilon * (vmag p * vmag p)) by (apply Rmult_le_compat_l; lra). lra. }
  cbn [orb].
  assert (D0 : 0 < pv * pv - vv * k). { apply Rle_lt_trans with (2 * rr * vv * kEpsilon); [|by apply Rnot_le_lt]. pose proof kEpsilon_pos as KE. apply Rmult_le_pos; [|lra]. apply Rmult_le_pos; lra. } rewrite (Rabs_pos_eq (pv * pv - vv * k)) by lra.
  destruct (quad_in vv pv k ltac:(lra) D0) as (_ & _ & R3). set (s := R_sqrt.sqrt (pv * pv - vv * k)) in *. set (r1 := (- pv - s) / vv) in *. set (r2 := (- pv + s) / vv) in *.
  assert (RR : ∀ u, f (along p d u) <= 1 <-> r1 <= u <= r2). { intros u. rewrite FQ. apply R3. }
  assert (S0 : 0 < s) by (by apply sqrt_lt_R0). assert (Ss : s * s = pv * pv - vv * k) by (apply sqrt_sqrt; lra).
  assert (NR : r2 < 0 -> False). { intros G. assert (G1 : s < pv). { assert (E : r2 * vv = - pv + s) by (unfold r2; field; lra). clear - E G VV. nra. } assert (G2 : 0 <= k) by (clear - Ss G1 S0 VV; nra). rewrite <- E0 in G2. assert (G3 : 1 <= f p). { apply Rnot_lt_le. intros N. pose proof (f_nonneg A B C p). assert (0 < 1 - f p * f p) by (clear - H N; nra). assert (0 < m * m * (1 - f p * f p)) by (apply Rmult_lt_0_compat; [by apply Rmult_lt_0_compat|done]). lra. } assert (m * 1 <= m * f p) by (apply Rmult_le_compat_l; lra). specialize (LR ltac:(lra)). lra. }
  assert (RL : r1 < r2) by (unfold r1, r2; apply Rmult_lt_compat_r; [apply Rinv_0_lt_compat; lra|lra]).
  set (tin := Rmax (zlow Z pz w) r1). set (tout := Rmin (zhigh Z pz w) r2).
  assert (WIN : (∀ u, solid (along p d u) <-> tin <= u <= tout) /\ (tout < 0 -> False)).
  { destruct (Req_dec w 0) as [W|W].
    - assert (I : Rabs pz < Z - h). { apply Rnot_le_lt. intros G. apply LZ in G. rewrite W in G. lra. } pose proof kTiny_pos as KT.
      assert (LH : zlow Z pz 0 <= - (h / kTiny) /\ h / kTiny <= zhigh Z pz 0). { destruct (zwin Z pz kTiny ltac:(lra) (or_introl KT)) as (Q1 & Q2 & Q3). unfold zlow, zhigh. rewrite nz_small. set (lo := (pz - _) * _) in *. set (hi := (pz + _) * _) in *. cbv zeta in Q2, Q3. rewrite (Rabs_pos_eq kTiny) in Q2, Q3 by lra. destruct (rltb_spec kTiny 0); [lra|]. assert (HK : h / kTiny * kTiny = h) by (field; lra). set (a := h / kTiny) in *. clearbody a lo hi. apply Rlt_le in I. apply abs_le in I. clear - Q2 Q3 HK I KT. split; nra. }
      destruct LH as [L1 L2]. assert (IN : ∀ u, r1 <= u <= r2 -> solid (along p d u)) by (intros u Hu; split; [apply ZW; rewrite W, Rmult_0_r, Rplus_0_r; lra|by apply RR]). specialize (Far (proj1 W0 W)).
      assert (BD : ∀ u, r1 <= u <= r2 -> - (h / kTiny) <= u <= h / kTiny). { intros u Hu. specialize (IN u Hu). apply solid_mag in IN. destruct (along_mag p d u Hd) as [G _]. apply abs_le. lra. }
      pose proof (BD r1 ltac:(lra)) as B1. pose proof (BD r2 ltac:(lra)) as B2. assert (T1 : tin = r1) by (unfold tin; rewrite W; apply Rmax_right; lra). assert (T2 : tout = r2) by (unfold tout; rewrite W; apply Rmin_right; lra). rewrite T1, T2. split; [|done]. intros u. split; [|apply IN]. intros [_ G]. by apply RR.
    - assert (KW : kAbsorb <= Rabs w) by (destruct Sz'; done). destruct (zwin Z pz w ltac:(lra) ltac:(lra)) as (Q1 & _ & Q3). assert (EL : zlow Z pz w = (pz - rcopysign Z (-1 / w)) * (-1 / w)) by (unfold zlow; by rewrite nz_big). assert (EH : zhigh Z pz w = (pz + rcopysign Z (-1 / w)) * (-1 / w)) by (unfold zhigh; by rewrite nz_big). rewrite <- EL, <- EH in Q1. rewrite <- EH in Q3. split.
      + intros u. unfold es_solid. rewrite ZW, Q1, RR. unfold tin, tout. rewrite min_ge, max_le. tauto.
      + unfold tout. intros G. apply min_lt in G. destruct G as [G|G]; [|by apply NR]. assert (P : 0 < Rabs w) by (by apply Rabs_pos_lt). assert (N : zhigh Z pz w * Rabs w < 0) by (clear - G P; nra). rewrite Q3 in N. destruct (rltb_spec w 0) as [S|S].
        * assert (G1 : Rabs pz = - pz) by (apply Rabs_left; lra). specialize (LZ ltac:(lra)). clear - LZ S N ZP. nra.
        * assert (G1 : Rabs pz = pz) by (apply Rabs_pos_eq; lra). specialize (LZ ltac:(lra)). clear - LZ S N ZP. nra. }
  destruct WIN as [W1 W2]. fold tin tout. destruct (rleb_spec (tout - tin) h) as [G|G].
  - right. split; [done|]. right. intros u u' U1 U2. apply W1 in U1. apply W1 in U2. apply abs_le. lra.
  - left. replace (tin + off - off) with tin by ring. split; [split; intros u Hu|].
    + apply W1. lra.
    + intros Q4. apply W1 in Q4. lra.
    + intros N. apply Rnot_le_lt. intros N2. apply N. replace p with (along p d 0) by (apply v3_eq; cbn; ring). apply W1. destruct (Rlt_le_dec tout 0) as [G3|G3]; [by apply W2 in G3|lra].
Qed.
Theorem to_in_spec inf p d : vdot d d = 1 -> vz d = 0 \/ kAbsorb <= Rabs (c * vz d) -> (vz d = 0 -> 2 * vmag p + rs <= h / kTiny) ->
  let s := es_to_in inf t p d in
  (enters solid h p d s /\ (¬ solid p -> 0 < s)) \/
  (s = inf /\ ((∀ u, 0 <= u -> es_shallow A B C zb zt (4 * kEpsilon * (vmag p * vmag p)) (along p d u)) \/ (∀ u u', solid (along p d u) -> solid (along p d u') -> Rabs (u - u') <= h))).
Proof using HA HB HC Hz.
  intros Hd Sz Far. unfold es_to_in, es_move. pose proof fields as (_ & _ & _ & _ & _ & _ & _ & RSP & _). rewrite RSP. pose proof (rs_ge A B C zb zt HA HB HC Hz) as (_ & _ & _ & RP). pose proof (vmag_nonneg p) as VN. pose proof (vmag_sqr p) as VS. pose proof kEpsilon_pos as KE.
  destruct (rgtb_spec (vdot p p) (1024 * rs * rs)) as [F1|F1], (rltb_spec (vdot d p) 0) as [F2|F2]; cbn [andb].
  2-4: pose proof (from_spec inf p d 0 Hd Sz ltac:(intros W; specialize (Far W); lra)) as K; cbv zeta in K; rewrite !Rminus_0_r in K; destruct K as [K|[K1 [K2|K2]]]; [by left|right; split; [done|left; intros u U; apply (shallow_more _ (2 * kEpsilon * (vmag p * vmag p))); [nra|by apply K2]]|right; split; [done|by right]].
  set (off := vmag p - 2 * rs). rewrite <- VS in F1. assert (G : 32 * rs < vmag p) by (clear - F1 RP VN; nra). change (vadd p (vscale off d)) with (along p d off).
  assert (AL : ∀ u, along (along p d off) d u = along p d (off + u)) by (intros; apply v3_eq; cbn; ring).
  assert (OFF : ∀ u, u <= off -> 0 <= u -> ¬ solid (along p d u)). { intros u U1 U2 Q. apply solid_mag in Q. destruct (along_mag p d u Hd) as [_ Q2]. rewrite Rabs_pos_eq in Q2 by done. unfold off in U1. lra. }
  assert (PM : vz d = 0 -> vmag (along p d off) + rs <= h / kTiny). { intros W. specialize (Far W). destruct (along_mag (along p d off) d (- off) Hd) as [_ Q]. rewrite AL in Q. replace (along p d (off + - off)) with p in Q by (apply v3_eq; cbn; ring). rewrite Rabs_Ropp, Rabs_pos_eq in Q by (unfold off; lra). unfold off in Q at 2. lra. }
  assert (PC : vmag (along p d off) * vmag (along p d off) <= 2 * (vmag p * vmag p)). { rewrite vmag_sqr. replace (vdot (along p d off) (along p d off)) with (vdot p p + 2 * off * vdot d p + off * off * vdot d d) by (unfold vdot, along; cbn; ring). rewrite Hd, <- VS. assert (0 <= off <= vmag p) by (unfold off; lra). assert (off * vdot d p <= 0) by (clear - H F2; nra). assert (off * off <= vmag p * vmag p) by (clear - H; nra). lra. }
  pose proof (from_spec inf (along p d off) d off Hd Sz PM) as K. cbv zeta in K. set (s := es_to_in_from inf t (along p d off) d off) in *. destruct K as [[[K1 K2] K3]|[K1 K2]]; [left|right].
  - assert (S0 : 0 < s - off). { apply K3. apply OFF; unfold off; lra. } split; [|unfold off in S0; lra]. split; intros u Hu.
    + replace u with (off + (u - off)) by ring. rewrite <- AL. apply K1. lra.
    + replace u with (off + (u - off)) by ring. rewrite <- AL. apply K2. lra.
  - split; [done|]. destruct K2 as [K2|K2]; [left|right].
    + intros u Hu. destruct (Rle_dec u off) as [Q|Q]; [by apply not_solid_shallow, OFF|]. replace u with (off + (u - off)) by ring. rewrite <- AL. apply (shallow_more _ (2 * kEpsilon * (vmag (along p d off) * vmag (along p d off)))); [|apply K2; lra]. set (x := vmag (along p d off) * vmag (along p d off)) in *. set (y := vmag p * vmag p) in *. clearbody x y. clear - PC KE. nra.
    + intros u u' U1 U2. replace (u - u') with ((u - off) - (u' - off)) by ring. apply K2; rewrite AL; [replace (off + (u - off)) with u by ring|replace (off + (u' - off)) with u' by ring]; done.
Qed.
End Shape.
