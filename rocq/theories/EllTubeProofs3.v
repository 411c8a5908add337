From Coq Require Import Reals Lra Lia Bool Psatz.
From stdpp Require Import base list option numbers tactics.
From Verif Require Import Real3 AABBModel AABBProofs BoxModel BoxProofs PlanesModel TetModel ConeModel ConeSpec ConeProofs EllTubeModel EllTubeSpec EllTubeProofs EllTubeProofs2.
Import stdpp.list.
Local Open Scope R_scope.

Lemma quad_in A B C : 0 < A -> 0 < B * B - A * C ->
  let s := R_sqrt.sqrt (B * B - A * C) in let tmp := - B - rcopysign s B in
  Rmin (tmp / A) (C / tmp) = (- B - s) / A /\ Rmax (tmp / A) (C / tmp) = (- B + s) / A /\ ∀ u, A * (u * u) + 2 * B * u + C <= 0 <-> (- B - s) / A <= u <= (- B + s) / A.
Proof.
  intros HA HD s tmp. assert (S0 : 0 < s) by (by apply sqrt_lt_R0). assert (S : s * s = B * B - A * C) by (apply sqrt_sqrt; lra).
  assert (L : (- B - s) / A < (- B + s) / A) by (apply Rmult_lt_compat_r; [by apply Rinv_0_lt_compat|lra]).
  assert (P : ∀ x, x <> 0 -> (- B - s) * (- B + s) = A * C). { intros. lra. }
  assert (T : (tmp / A = (- B - s) / A /\ C / tmp = (- B + s) / A) \/ (tmp / A = (- B + s) / A /\ C / tmp = (- B - s) / A)).
  { unfold tmp, rcopysign. rewrite (Rabs_pos_eq s) by lra. assert (Q : (- B - s) * (- B + s) = A * C) by lra. destruct (rltb_spec B 0) as [N|N].
    - right. replace (- B - - s) with (- B + s) by ring. split; [done|]. apply Rmult_eq_reg_r with (A * (- B + s)); [|apply Rmult_integral_contrapositive; lra]. replace (C / (- B + s) * (A * (- B + s))) with (A * C) by (field; lra). rewrite <- Q. field. lra.
    - left. split; [done|]. apply Rmult_eq_reg_r with (A * (- B - s)); [|apply Rmult_integral_contrapositive; lra]. replace (C / (- B - s) * (A * (- B - s))) with (A * C) by (field; lra). rewrite <- Q. field. lra. }
  split; [destruct T as [[-> ->]|[-> ->]]; unfold Rmin; destruct (Rle_dec _ _); lra|]. split; [destruct T as [[-> ->]|[-> ->]]; unfold Rmax; destruct (Rle_dec _ _); lra|].
  intros u. clear T P tmp. assert (E : A * (A * (u * u) + 2 * B * u + C) = (A * u + B) * (A * u + B) - s * s) by (rewrite S; ring). assert (E1 : (- B - s) / A * A = - B - s) by (field; lra). assert (E2 : (- B + s) / A * A = - B + s) by (field; lra).
  set (r1 := (- B - s) / A) in *. set (r2 := (- B + s) / A) in *. set (f := A * (u * u) + 2 * B * u + C) in *. clearbody r1 r2 f s. clear - HA S0 E E1 E2. split.
  - intros H. assert (Q : (A * u + B) * (A * u + B) <= s * s) by nra. assert (- s <= A * u + B <= s) by (split; nra). split; nra.
  - intros [H1 H2]. assert (- s <= A * u + B <= s) by (split; nra). assert ((A * u + B) * (A * u + B) <= s * s) by nra. nra.
Qed.
Definition zlow (Z pz w : R) : R := (pz - rcopysign Z (-1 / nz w)) * (-1 / nz w).
Definition zhigh (Z pz w : R) : R := (pz + rcopysign Z (-1 / nz w)) * (-1 / nz w).
Lemma nz_small : nz 0 = kTiny.
Proof. unfold nz. rewrite Rabs_R0. destruct (rgeb_spec 0 kAbsorb) as [H|H]; [exfalso|unfold nonzero; destruct (rltb_spec 0 0); lra]. unfold kAbsorb in H. assert (0 < / 2 ^ 46) by (apply Rinv_0_lt_compat, pow_lt; lra). lra. Qed.
Lemma nz_big w : kAbsorb <= Rabs w -> nz w = w.
Proof. intros H. unfold nz. destruct (rgeb_spec (Rabs w) kAbsorb); [done|lra]. Qed.
Lemma kTiny_pos : 0 < kTiny.
Proof. unfold kTiny. apply Rinv_0_lt_compat, pow_lt. lra. Qed.
Lemma zwin Z pz k : 0 <= Z -> 0 < k \/ k < 0 -> let lo := (pz - rcopysign Z (-1 / k)) * (-1 / k) in let hi := (pz + rcopysign Z (-1 / k)) * (-1 / k) in
  (∀ u, Rabs (pz + u * k) <= Z <-> lo <= u <= hi) /\ (hi - lo) * Rabs k = 2 * Z /\ hi * Rabs k = (if rltb k 0 then Z + pz else Z - pz).
Proof.
  intros HZ Hk lo hi. unfold lo, hi, rcopysign. rewrite (Rabs_pos_eq Z) by lra.
  assert (Q : k <> 0) by lra. assert (E : -1 / k * k = -1) by (field; done). set (v := -1 / k) in *. clearbody v. clear lo hi. destruct Hk as [Hk|Hk].
  - assert (v < 0) by nra. destruct (rltb_spec v 0); [|lra]. destruct (rltb_spec k 0); [lra|]. rewrite (Rabs_pos_eq k) by lra. split; [|split; [replace (((pz + - Z) * v - (pz - - Z) * v) * k) with (- 2 * Z * (v * k)) by ring|replace ((pz + - Z) * v * k) with ((pz - Z) * (v * k)) by ring]; rewrite E; ring]. intros u. rewrite abs_le.
    assert (E1 : (pz - - Z) * v * k = - pz - Z) by (replace ((pz - - Z) * v * k) with ((pz + Z) * (v * k)) by ring; rewrite E; ring). assert (E2 : (pz + - Z) * v * k = Z - pz) by (replace ((pz + - Z) * v * k) with ((pz - Z) * (v * k)) by ring; rewrite E; ring). set (a := (pz - - Z) * v) in *. set (b := (pz + - Z) * v) in *. clearbody a b. clear - Hk E1 E2. split; intros []; split; nra.
  - assert (0 < v) by nra. destruct (rltb_spec v 0); [lra|]. destruct (rltb_spec k 0); [|lra]. rewrite (Rabs_left k) by lra. split; [|split; [replace (((pz + Z) * v - (pz - Z) * v) * - k) with (- 2 * Z * (v * k)) by ring|replace ((pz + Z) * v * - k) with (- (pz + Z) * (v * k)) by ring]; rewrite E; ring]. intros u. rewrite abs_le.
    assert (E1 : (pz - Z) * v * k = Z - pz) by (replace ((pz - Z) * v * k) with ((pz - Z) * (v * k)) by ring; rewrite E; ring). assert (E2 : (pz + Z) * v * k = - Z - pz) by (replace ((pz + Z) * v * k) with ((pz + Z) * (v * k)) by ring; rewrite E; ring). set (a := (pz - Z) * v) in *. set (b := (pz + Z) * v) in *. clearbody a b. clear - Hk E1 E2. split; intros []; split; nra.
Qed.
Section Shape.
Variables X Y Z : R.
Hypothesis HX : 2 * kTolerance <= X.
Hypothesis HY : 2 * kTolerance <= Y.
Hypothesis HZ : kHalfTolerance <= 2 * Z.
Variable perimeter : R -> R -> R.
Notation t := (mk_elltube perimeter X Y Z).
Let m := Rmin X Y.
Notation e := (ell X Y).
Notation solid := (ell_tube X Y Z).
Let rs := R_sqrt.sqrt (X * X + Y * Y + Z * Z).
Notation h := kHalfTolerance.
Lemma not_solid_shallow q : ¬ solid q -> shallow X Y Z q.
Proof using HX HY.
  intros N. pose proof kHalfTolerance_pos. pose proof (m_pos' X Y HX HY). fold m in H0. unfold shallow. fold m. destruct (Rle_dec (Rabs (vz q)) Z); [|left; lra]. destruct (Rle_dec (e q) 1) as [?|G]; [by destruct N|]. right. left. apply Rnot_le_lt in G. nra.
Qed.
Lemma along_mag p d u : vdot d d = 1 -> Rabs u <= vmag p + vmag (along p d u) /\ vmag p <= vmag (along p d u) + Rabs u.
Proof using.
  clear. intros Hd. assert (D1 : vmag d = 1) by (unfold vmag; rewrite Hd; apply sqrt_1). split.
  - assert (E : vscale u d = vadd (along p d u) (vneg p)) by (apply v3_eq; cbn; ring). assert (V : vmag (vscale u d) = Rabs u) by (rewrite vmag_scale, D1; ring). rewrite <- V, E. pose proof (vmag_add (along p d u) (vneg p)) as T. unfold vneg in *. rewrite vmag_scale in T. rewrite (Rabs_left (-1)) in T by lra. lra.
  - assert (E : p = vadd (along p d u) (vscale (- u) d)) by (apply v3_eq; cbn; ring). rewrite E at 1. pose proof (vmag_add (along p d u) (vscale (- u) d)) as T. rewrite vmag_scale, D1, Rabs_Ropp in T. lra.
Qed.
Theorem from_spec inf p d off : vdot d d = 1 -> slant X Y d = 0 \/ kEpsilon <= slant X Y d -> vz d = 0 \/ kAbsorb <= Rabs (vz d) -> (vz d = 0 -> vmag p + rs <= h / kTiny) ->
  let s := et_to_in_from inf t p d off in
  (enters solid h p d (s - off) /\ (¬ solid p -> 0 < s - off)) \/
  (s = inf /\ ((∀ u, 0 <= u -> shallow X Y Z (along p d u)) \/ (∀ u u', solid (along p d u) -> solid (along p d u') -> Rabs (u - u') < h))).
Proof using HX HY HZ.
  intros Hd St Sz Far. pose proof kHalfTolerance_pos as Hh. pose proof (m_pos' X Y HX HY) as Hm. fold m in Hm. destruct (parallel_iff X Y HX HY d Hd St) as [Pa Sg]. unfold et_to_in_from. rewrite (slant_A X Y Z HX HY).
  replace (et_dz t) with Z by (rewrite te by done; done). replace (et_scratch t) with (2 * m * m * kEpsilon) by (rewrite te by done; done).
  fold (zlow Z (vz p) (vz d)). fold (zhigh Z (vz p) (vz d)).
  assert (ZZ : ∀ u, vz (along p d u) = vz p + u * vz d) by done.
  assert (DZ : et_distZ t p = Rabs (vz p) - Z) by (by apply distZ_e). assert (DR : et_distR t p >= - h <-> m - h <= m * e p). { destruct (distR_e X Y Z HX HY perimeter p h eq_refl) as (_ & _ & E). fold m in E. rewrite <- E. split; lra. }
  pose proof (e_along X Y Z HX HY perimeter p d) as EA. cbv zeta in EA. rewrite (slant_A X Y Z HX HY) in EA. fold m in EA.
  assert (A1 : slant X Y d <= 1). { rewrite <- (slant_A X Y Z HX HY perimeter). by apply A_le. }
  set (A := slant X Y d) in *. set (B := et_x t p * (vx d * et_sx t) + et_y t p * (vy d * et_sy t)) in *. set (C := et_rr t p - et_r t * et_r t) in *. set (par := rltb A kEpsilon || rgeb (Rabs (vz d)) 1) in *.
  assert (E0 : m * m * (e p * e p - 1) = C). { pose proof (EA 0) as E0. rewrite !Rmult_0_r, !Rplus_0_l in E0. rewrite <- E0. unfold along. replace (vadd p (vscale 0 d)) with p by (apply v3_eq; cbn; ring). done. }
  assert (HM : 0 <= m - h) by (pose proof (m_pos X Y HX HY) as Q; fold m in Q; pose proof kTolerance_pos; unfold h; lra).
  assert (LV : (rgeb (et_distZ t p) (- h) && rgeb (vz p * vz d) 0) || (rgeb (et_distR t p) (- h) && (rgeb B 0 || par)) = true \/
    ((Z - h <= Rabs (vz p) -> vz p * vz d < 0) /\ (m - h <= m * e p -> B < 0 /\ A <> 0))).
  { destruct (rgeb_spec (et_distZ t p) (- h)), (rgeb_spec (vz p * vz d) 0); cbn [andb orb]; auto; destruct (rgeb_spec (et_distR t p) (- h)), (rgeb_spec B 0); cbn [andb orb]; auto; destruct par eqn:EP; auto; right;
      (split; [intros; try lra|intros Q; first [apply DR in Q; lra|split; [lra|intros Q2; apply Pa in Q2; discriminate]]]). }
  destruct LV as [LV|[LZ LR]].
  { rewrite LV. right. split; [done|]. left. intros u Hu. apply orb_true_iff in LV. destruct LV as [LV|LV]; apply andb_true_iff in LV; destruct LV as [L1 L2].
    - left. rewrite ZZ. destruct (rgeb_spec (et_distZ t p) (- h)) as [G1|]; [|discriminate]. destruct (rgeb_spec (vz p * vz d) 0) as [G2|]; [|discriminate]. rewrite DZ in G1. apply Rle_trans with (Rabs (vz p)); [lra|]. apply Rsqr_le_abs_0. unfold Rsqr. clear - G2 Hu. assert (0 <= u * (vz p * vz d)) by nra. assert (0 <= (u * vz d) * (u * vz d)) by nra. lra.
    - right. left. fold m. destruct (rgeb_spec (et_distR t p) (- h)) as [G1|]; [|discriminate]. apply DR in G1. apply (e_lt_1 X Y HX HY); [exact HM|]. fold m. rewrite EA. apply (e_lt_1 X Y HX HY) in G1; [|exact HM]. fold m in G1. rewrite E0 in G1.
      assert (A0 : 0 <= A) by (destruct Sg; lra). assert (B0 : 0 <= B \/ A = 0 /\ B = 0). { destruct (rgeb_spec B 0); [left; lra|]. right. assert (P0 : A = 0) by (by apply Pa). split; [done|]. destruct (slant_0 X Y HX HY d Hd) as [_ S]. destruct (S P0) as (V1 & V2 & _). unfold B. rewrite V1, V2. ring. }
      clear - G1 A0 B0 Hu. destruct B0 as [B0|[-> ->]]; [|lra]. assert (0 <= B * u) by nra. assert (0 <= A * (u * u)) by nra. lra. }
  destruct ((rgeb (et_distZ t p) (- h) && rgeb (vz p * vz d) 0) || (rgeb (et_distR t p) (- h) && (rgeb B 0 || par))) eqn:EL.
  { exfalso. apply orb_true_iff in EL. destruct EL as [EL|EL]; apply andb_true_iff in EL; destruct EL as [L1 L2].
    - destruct (rgeb_spec (et_distZ t p) (- h)) as [G1|]; [|discriminate]. destruct (rgeb_spec (vz p * vz d) 0) as [G2|]; [|discriminate]. specialize (LZ ltac:(lra)). lra.
    - destruct (rgeb_spec (et_distR t p) (- h)) as [G1|]; [|discriminate]. apply DR in G1. destruct (LR G1) as [G2 G3]. apply orb_true_iff in L2. destruct L2 as [L2|L2]; [destruct (rgeb_spec B 0); [lra|discriminate]|]. apply Pa in L2. done. }
  clear EL.
  (* the window of the lids *)
  assert (WZ : vz d = 0 /\ Rabs (vz p) < Z - h /\ zlow Z (vz p) 0 <= - (h / kTiny) /\ h / kTiny <= zhigh Z (vz p) 0 \/
    vz d <> 0 /\ (∀ u, Rabs (vz (along p d u)) <= Z <-> zlow Z (vz p) (vz d) <= u <= zhigh Z (vz p) (vz d)) /\ (zhigh Z (vz p) (vz d) - zlow Z (vz p) (vz d)) * Rabs (vz d) = 2 * Z /\ (zhigh Z (vz p) (vz d) < 0 -> False)).
  { destruct (Req_dec (vz d) 0) as [W|W].
    - left. assert (I : Rabs (vz p) < Z - h). { apply Rnot_le_lt. intros G. apply LZ in G. rewrite W in G. lra. } split; [done|]. split; [done|]. pose proof kTiny_pos as KT.
      destruct (zwin Z (vz p) kTiny ltac:(lra) (or_introl KT)) as (Q1 & Q2 & Q3). unfold zlow, zhigh. rewrite nz_small. set (lo := (vz p - _) * _) in *. set (hi := (vz p + _) * _) in *. cbv zeta in Q2, Q3. rewrite (Rabs_pos_eq kTiny) in Q2, Q3 by lra. destruct (rltb_spec kTiny 0); [lra|]. assert (HK : h / kTiny * kTiny = h) by (field; lra). set (a := h / kTiny) in *. clearbody a lo hi. apply Rlt_le in I. apply abs_le in I. clear - Q2 Q3 HK I KT. split; nra.
    - right. assert (KW : kAbsorb <= Rabs (vz d)) by (destruct Sz; done). unfold zlow, zhigh. rewrite nz_big by done. destruct (zwin Z (vz p) (vz d) ltac:(lra) ltac:(lra)) as (Q1 & Q2 & Q3). split; [done|]. split; [intros u; rewrite ZZ; apply Q1|]. split; [done|]. intros G.
      assert (P : 0 < Rabs (vz d)) by (by apply Rabs_pos_lt). set (hi := (vz p + _) * _) in *. cbv zeta in Q3. assert (N : hi * Rabs (vz d) < 0) by (clear - G P; nra). rewrite Q3 in N. destruct (rltb_spec (vz d) 0) as [S|S].
      + assert (G1 : Rabs (vz p) = - vz p) by (apply Rabs_left; lra). specialize (LZ ltac:(lra)). clear - LZ S N HZ Hh. nra.
      + assert (G1 : Rabs (vz p) = vz p) by (apply Rabs_pos_eq; lra). specialize (LZ ltac:(lra)). clear - LZ S N HZ Hh. nra. }
  assert (FIN : ∀ tin tout, (∀ u, solid (along p d u) <-> tin <= u <= tout) -> (tout < 0 -> False) -> tout - tin >= h -> enters solid h p d (tin + off - off) /\ (¬ solid p -> 0 < tin + off - off)).
  { intros tin tout Q1 Q2 Q3. replace (tin + off - off) with tin by ring. split; [split; intros u Hu|].
    - apply Q1. lra.
    - intros Q4. apply Q1 in Q4. lra.
    - intros N. apply Rnot_le_lt. intros N2. apply N. replace p with (along p d 0) by (apply v3_eq; cbn; ring). apply Q1. destruct (Rlt_le_dec tout 0) as [G|G]; [by apply Q2 in G|lra]. }
  destruct par eqn:EP.
  { assert (P0 : A = 0) by (by apply Pa). destruct (slant_0 X Y HX HY d Hd) as [_ S]. destruct (S P0) as (V1 & V2 & V3). left.
    destruct WZ as [[W _]|(W & Q1 & Q2 & Q3)]; [lra|]. apply (FIN _ (zhigh Z (vz p) (vz d))); [|done|].
    - intros u. unfold ell_tube. rewrite Q1. assert (EE : e (along p d u) = e p). { unfold ell, along. cbn [vx vy vadd vscale]. rewrite V1, V2, Rmult_0_r, !Rplus_0_r. done. } rewrite EE. assert (I : e p <= 1). { apply Rnot_lt_le. intros G. destruct LR as [_ G2]; [|done]. assert (m < m * e p) by (clear - G Hm; nra). lra. } tauto.
    - assert (Rabs (vz d) = 1) as G by (destruct V3 as [->| ->]; [rewrite Rabs_pos_eq; lra|rewrite Rabs_left; lra]). rewrite G in Q2. lra. }
  assert (A0 : 0 < A). { destruct Sg as [?|Z0]; [done|]. apply Pa in Z0. discriminate. } clear Sg Pa.
  destruct (rleb_spec (B * B - A * C) (A * A * (2 * m * m * kEpsilon))) as [SC|SC].
  { right. split; [done|]. left. intros u _. right. right. change (/ 2 ^ 52) with kEpsilon. pose proof (EA u) as Eu. pose proof kEpsilon_pos as KE. assert (F : - (A * (2 * m * m * kEpsilon)) <= A * (u * u) + 2 * B * u + C).
    { apply Rmult_le_reg_l with A; [done|]. assert (A * (A * (u * u) + 2 * B * u + C) = (A * u + B) * (A * u + B) - (B * B - A * C)) by ring. pose proof (Rle_0_sqr (A * u + B)) as G. unfold Rsqr in G. lra. }
    rewrite <- Eu in F. assert (MM : 0 < m * m) by (clear - Hm; nra). assert (F2 : A * (2 * m * m * kEpsilon) <= m * m * (2 * kEpsilon)). { assert (0 <= m * m * (2 * kEpsilon)) by (apply Rmult_le_pos; lra). replace (A * (2 * m * m * kEpsilon)) with (A * (m * m * (2 * kEpsilon))) by ring. clear - A1 H. nra. }
    apply Rmult_le_reg_l with (m * m); [done|]. lra. }
  assert (D0 : 0 < B * B - A * C). { apply Rle_lt_trans with (A * A * (2 * m * m * kEpsilon)); [|by apply Rnot_le_lt]. pose proof kEpsilon_pos as KE. clear - KE A0 Hm. apply Rmult_le_pos; [nra|]. apply Rmult_le_pos; [nra|lra]. }
  destruct (quad_in A B C A0 D0) as (R1 & R2 & R3). rewrite R1, R2. set (s := R_sqrt.sqrt (B * B - A * C)) in *. set (r1 := (- B - s) / A) in *. set (r2 := (- B + s) / A) in *.
  assert (RR : ∀ u, e (along p d u) <= 1 <-> r1 <= u <= r2). { intros u. rewrite (e_le_1 X Y HX HY). fold m. rewrite EA. apply R3. }
  assert (S0 : 0 < s) by (by apply sqrt_lt_R0). assert (Ss : s * s = B * B - A * C) by (apply sqrt_sqrt; lra).
  assert (NR : r2 < 0 -> False). { intros G. assert (G1 : s < B). { assert (E : r2 * A = - B + s) by (unfold r2; field; lra). clear - E G A0. nra. } assert (G2 : 0 <= C) by (clear - Ss G1 S0 A0; nra). destruct LR as [G3 _]; [|lra]. rewrite <- E0 in G2. apply Rle_trans with m; [lra|]. apply (e_lt_1 X Y HX HY); [fold m; lra|]. fold m. lra. }
  assert (RL : r1 < r2) by (unfold r1, r2; apply Rmult_lt_compat_r; [by apply Rinv_0_lt_compat|lra]).
  set (tin := Rmax (zlow Z (vz p) (vz d)) r1). set (tout := Rmin (zhigh Z (vz p) (vz d)) r2).
  assert (WIN : (∀ u, solid (along p d u) <-> tin <= u <= tout) /\ (tout < 0 -> False)).
  { destruct WZ as [(W & I & L1 & L2)|(W & Q1 & Q2 & Q3)].
    - assert (IN : ∀ u, r1 <= u <= r2 -> solid (along p d u)) by (intros u Hu; split; [rewrite ZZ, W, Rmult_0_r, Rplus_0_r; lra|by apply RR]). specialize (Far W).
      assert (BD : ∀ u, r1 <= u <= r2 -> - (h / kTiny) <= u <= h / kTiny). { intros u Hu. specialize (IN u Hu). apply (solid_mag X Y Z HX HY) in IN. fold rs in IN. destruct (along_mag p d u Hd) as [G _]. apply abs_le. lra. }
      pose proof (BD r1 ltac:(lra)) as B1. pose proof (BD r2 ltac:(lra)) as B2. assert (T1 : tin = r1) by (unfold tin; rewrite W; apply Rmax_right; lra). assert (T2 : tout = r2) by (unfold tout; rewrite W; apply Rmin_right; lra). rewrite T1, T2. split; [|done]. intros u. split; [|apply IN]. intros [_ G]. by apply RR.
    - split.
      + intros u. unfold ell_tube. rewrite Q1, RR. unfold tin, tout. rewrite min_ge, max_le. tauto.
      + unfold tout. intros G. apply min_lt in G. tauto. }
  destruct WIN as [W1 W2]. destruct (rgeb_spec (tout - tin) h) as [G|G].
  - left. by apply (FIN tin tout).
  - right. split; [done|]. right. intros u u' U1 U2. apply W1 in U1. apply W1 in U2. apply Rabs_def1; lra.
Qed.
Theorem to_in_spec inf p d : vdot d d = 1 -> slant X Y d = 0 \/ kEpsilon <= slant X Y d -> vz d = 0 \/ kAbsorb <= Rabs (vz d) -> (vz d = 0 -> 2 * vmag p + rs <= h / kTiny) ->
  let s := et_to_in inf t p d in
  (enters solid h p d s /\ (¬ solid p -> 0 < s)) \/
  (s = inf /\ ((∀ u, 0 <= u -> shallow X Y Z (along p d u)) \/ (∀ u u', solid (along p d u) -> solid (along p d u') -> Rabs (u - u') < h))).
Proof using HX HY HZ.
  intros Hd St Sz Far. unfold et_to_in, et_move. replace (et_rsph t) with rs by (rewrite te by done; done). pose proof (rs_pos X Y Z HX HY) as RP. fold rs in RP. pose proof (vmag_nonneg p) as VN. pose proof (vmag_sqr p) as VS.
  destruct (rgtb_spec (vdot p p) (1024 * rs * rs)) as [F1|F1], (rltb_spec (vdot d p) 0) as [F2|F2]; cbn [andb].
  2-4: pose proof (from_spec inf p d 0 Hd St Sz ltac:(intros W; specialize (Far W); lra)) as K; cbv zeta in K; rewrite !Rminus_0_r in K; exact K.
  set (off := vmag p - 2 * rs). rewrite <- VS in F1. assert (G : 32 * rs < vmag p) by (clear - F1 RP VN; nra). change (vadd p (vscale off d)) with (along p d off).
  assert (AL : ∀ u, along (along p d off) d u = along p d (off + u)) by (intros; apply v3_eq; cbn; ring).
  assert (OFF : ∀ u, u <= off -> 0 <= u -> ¬ solid (along p d u)). { intros u U1 U2 Q. apply (solid_mag X Y Z HX HY) in Q. fold rs in Q. destruct (along_mag p d u Hd) as [_ Q2]. rewrite Rabs_pos_eq in Q2 by done. unfold off in U1. lra. }
  assert (PM : vz d = 0 -> vmag (along p d off) + rs <= h / kTiny). { intros W. specialize (Far W). destruct (along_mag (along p d off) d (- off) Hd) as [_ Q]. rewrite AL in Q. replace (along p d (off + - off)) with p in Q by (apply v3_eq; cbn; ring). rewrite Rabs_Ropp, Rabs_pos_eq in Q by (unfold off; lra). unfold off in Q at 2. lra. }
  pose proof (from_spec inf (along p d off) d off Hd St Sz PM) as K. cbv zeta in K. set (s := et_to_in_from inf t (along p d off) d off) in *. destruct K as [[[K1 K2] K3]|[K1 K2]]; [left|right].
  - assert (S0 : 0 < s - off). { apply K3. apply OFF; unfold off; lra. } split; [|unfold off in S0; lra]. split; intros u Hu.
    + replace u with (off + (u - off)) by ring. rewrite <- AL. apply K1. lra.
    + replace u with (off + (u - off)) by ring. rewrite <- AL. apply K2. lra.
  - split; [done|]. destruct K2 as [K2|K2]; [left|right].
    + intros u Hu. destruct (Rle_dec u off) as [Q|Q]; [by apply not_solid_shallow, OFF|]. replace u with (off + (u - off)) by ring. rewrite <- AL. apply K2. lra.
    + intros u u' U1 U2. replace (u - u') with ((u - off) - (u' - off)) by ring. apply K2; rewrite AL; [replace (off + (u - off)) with u by ring|replace (off + (u' - off)) with u' by ring]; done.
Qed.
End Shape.
