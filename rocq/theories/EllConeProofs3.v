(** Elliptical cones: the way in along a ray. *)
From Coq Require Import Reals Lra Lia Bool ZArith Psatz.
From stdpp Require Import base list option numbers tactics.
From Verif Require Import Real3 AABBModel BoxModel BoxProofs PlanesModel PlanesProofs ConeSpec ConeProofs EllTubeModel EllTubeSpec EllTubeProofs EllTubeProofs2 EllTubeProofs3 TubeProofs PolyconeSpec EllConeModel EllConeSpec EllConeProofs EllConeProofs2 PropEllCone PropEllCone3.
Import stdpp.list.
Local Open Scope R_scope.

Section Core.
Variables A B C z w t1 t2 : R.
Hypothesis HA : A <> 0.
Hypothesis G : ∀ u, 0 <= A * (u * u) + 2 * B * u + C + (z + w * u) * (z + w * u).
Hypothesis F : ∀ u, A * (u * u) + 2 * B * u + C = A * (u - t1) * (u - t2).
Hypothesis T : t1 <= t2.
Notation N u := (z + w * u <= 0 /\ A * (u * u) + 2 * B * u + C <= 0).
Lemma level_between : w <> 0 -> 0 <= A * (- z / w - t1) * (- z / w - t2).
Proof using HA G F T. intros W. rewrite <- F. pose proof (G (- z / w)) as Q. replace (z + w * (- z / w)) with 0 in Q by (field; done). lra. Qed.
Lemma level_range : A < 0 -> w <> 0 -> t1 <= - z / w <= t2.
Proof using HA G F T.
  intros P W. pose proof (level_between W) as X. set (x := - z / w) in *. assert (X1 : (x - t1) * (x - t2) <= 0) by (clear - X P; nra). split; apply Rnot_lt_le; intros L; clear - L X1 T; nra.
Qed.
Lemma double_equal x : z + w * x = 0 -> x = t1 \/ x = t2 -> t1 = t2.
Proof using HA G F T.
  intros Z X. assert (E0 : A * (x * x) + 2 * B * x + C = 0) by (rewrite F; destruct X as [-> | ->]; ring). pose proof (apex_double A B C z w G x Z E0) as D.
  assert (K : ∀ v, v = t1 \/ v = t2 -> v = x). { intros v V. specialize (D v). rewrite F in D. assert (Q : A * ((v - x) * (v - x)) = 0) by (rewrite <- D; destruct V as [-> | ->]; ring). apply Rmult_integral in Q. destruct Q as [|Q]; [done|]. apply Rmult_integral in Q. lra. }
  rewrite (K t1 ltac:(tauto)), (K t2 ltac:(tauto)). done.
Qed.
Lemma in_down u : A < 0 -> w < 0 -> (N u <-> t2 <= u).
Proof using HA G F T.
  intros P W. pose proof (level_range P ltac:(lra)) as X. set (x := - z / w) in *. assert (XE : w * x = - z) by (unfold x; field; lra). rewrite F. split.
  - intros [V1 V2]. assert (UX : x <= u) by (clear - V1 XE W; nra). assert (Q : 0 <= (u - t1) * (u - t2)) by (clear - V2 P; nra). apply Rnot_lt_le. intros L. assert (U1 : u = t1) by (apply Rle_antisym; [|lra]; apply Rnot_lt_le; intros L'; clear - L L' Q; nra). assert (x = t1) by lra. pose proof (double_equal x ltac:(lra) ltac:(tauto)). lra.
  - intros L. split; [clear - L X XE W; nra|]. assert (0 <= (u - t1) * (u - t2)) by (clear - L T; nra). clear - H P. nra.
Qed.
Lemma in_up u : A < 0 -> 0 < w -> (N u <-> u <= t1).
Proof using HA G F T.
  intros P W. pose proof (level_range P ltac:(lra)) as X. set (x := - z / w) in *. assert (XE : w * x = - z) by (unfold x; field; lra). rewrite F. split.
  - intros [V1 V2]. assert (UX : u <= x) by (clear - V1 XE W; nra). assert (Q : 0 <= (u - t1) * (u - t2)) by (clear - V2 P; nra). apply Rnot_lt_le. intros L. assert (U1 : u = t2) by (apply Rle_antisym; [lra|]; apply Rnot_lt_le; intros L'; clear - L L' Q; nra). assert (x = t2) by lra. pose proof (double_equal x ltac:(lra) ltac:(tauto)). lra.
  - intros L. split; [clear - L X XE W; nra|]. assert (0 <= (u - t1) * (u - t2)) by (clear - L T; nra). clear - H P. nra.
Qed.
Lemma range u : 0 < A -> (A * (u - t1) * (u - t2) <= 0 <-> t1 <= u <= t2).
Proof using T.
  clear - T. intros P. split.
  - intros V. assert (Q : (u - t1) * (u - t2) <= 0) by (clear - V P; nra). split; apply Rnot_lt_le; intros L; clear - L Q T; nra.
  - intros [L1 L2]. assert ((u - t1) * (u - t2) <= 0) by (clear - L1 L2; nra). clear - H P. nra.
Qed.
Lemma in_flat u : 0 < A -> z + w * t1 < 0 -> (N u <-> t1 <= u <= t2).
Proof using HA G F T.
  intros P Z. rewrite F, range by done. split; [tauto|]. intros [L1 L2]. split; [|done]. apply Rnot_lt_le. intros L. assert (W : 0 < w) by (clear - L L1 Z; nra). pose proof (level_between ltac:(lra)) as X. set (x := - z / w) in *. assert (XE : w * x = - z) by (unfold x; field; lra). assert (X1 : t1 < x) by (clear - XE Z W; nra). assert (X2 : x < t2) by (clear - XE L L2 W; nra).
  assert (0 < A * (x - t1)) by (apply Rmult_lt_0_compat; lra). clear - H X X2. nra.
Qed.
Lemma in_apex u : 0 < A -> 0 <= z + w * t1 -> N u -> z + w * u = 0.
Proof using HA G F T.
  intros P Z [V1 V2]. rewrite F, range in V2 by done. destruct V2 as [L1 L2]. destruct (Rle_lt_or_eq_dec _ _ V1) as [L|]; [exfalso|done]. assert (W : w < 0) by (clear - L L1 Z; nra). pose proof (level_between ltac:(lra)) as X. set (x := - z / w) in *. assert (XE : w * x = - z) by (unfold x; field; lra). assert (X1 : t1 <= x) by (clear - XE Z W; nra). assert (X2 : x < u) by (clear - XE L W; nra).
  destruct (Req_dec x t1) as [E|E]; [pose proof (double_equal x ltac:(lra) ltac:(tauto)); lra|]. assert (0 < A * (x - t1)) by (apply Rmult_lt_0_compat; lra). clear - H X X2 L2. nra.
Qed.
End Core.
Lemma no_root A B C u : 0 < A -> B * B - A * C < 0 -> 0 < A * (u * u) + 2 * B * u + C.
Proof. intros P D. assert (E : A * (A * (u * u) + 2 * B * u + C) = (A * u + B) * (A * u + B) - (B * B - A * C)) by ring. pose proof (Rle_0_sqr (A * u + B)) as Q. unfold Rsqr in Q. set (f := A * (u * u) + 2 * B * u + C) in *. clearbody f. clear - E Q D P. nra. Qed.

Section Cone.
Variable ellint : R -> R.
Variables inf a b h c : R.
Hypothesis Ha : 2 * kTolerance <= a.
Hypothesis Hb : 2 * kTolerance <= b.
Hypothesis Hc : 2 * kTolerance <= c.
Hypothesis Hh : c <= h.
Let t := mk_econe ellint a b h c.
Let S := econe_solid a b h c.
(** Not deeper than half a tolerance *)
Definition not_deep (p : v3) : Prop := - kHalfTolerance <= above a b h p ∨ c - kHalfTolerance <= Rabs (vz p).
Section Ray.
Variables p d : v3.
Hypothesis Hd : vdot d d = 1.
Hypothesis Hs : slanted a b d.
Let A := ec_A t d.
Let B := ec_B t p d.
Let C := ec_C t p.
Notation e := (ell a b).
Lemma D_all : ec_D t p d = B * B - A * C ∧ (A < 0 → 0 <= B * B - A * C).
Proof using Ha Hb Hc Hh Hd Hs.
  assert (NEG : A < 0 → 0 <= B * B - A * C).
  { intros L. destruct (A_nonzero ellint a b h c Ha Hb Hc Hh d Hd Hs) as [_ AZ]. fold t A in AZ. assert (W : vz d ≠ 0) by (intros W; specialize (AZ W); lra). pose proof (value_nonneg ellint a b h c Ha Hb Hc Hh p d Hs (- (vz p - h) / vz d)) as V. fold t A B C in V. set (x := - (vz p - h) / vz d) in *. assert (XE : vz p - h + vz d * x = 0) by (unfold x; field; done). rewrite XE in V. assert (E : A * (A * (x * x) + 2 * B * x + C) = (A * x + B) * (A * x + B) - (B * B - A * C)) by ring. assert (A * (A * (x * x) + 2 * B * x + C) <= 0) by (clear - V L; nra). pose proof (Rle_0_sqr (A * x + B)) as Q. unfold Rsqr in Q. lra. }
  split; [|done]. unfold ec_D. fold A B C. destruct (rltb_spec (B * B - A * C) 0) as [L|L]; [|by rewrite andb_false_r]. destruct (rleb_spec (ec_ds t p) 0) as [M|M]; [|done]. exfalso. unfold t in M. rewrite ds_eq in M by done. apply above_nappe in M; [|done..]. apply nappe_sqr in M. assert (HC : C <= 0). { unfold C, ec_C, t. rewrite Ar_eq by done. destruct (fields ellint a b h c Ha Hb Hc Hh) as (_ & _ & -> & _). lra. }
  destruct (Rlt_le_dec A 0) as [L'|L']; [specialize (NEG L'); lra|]. pose proof (Rle_0_sqr B) as Q. unfold Rsqr in Q. clear - Q L L' HC. nra.
Qed.
Lemma roots_all b0 : 0 <= B * B - A * C → let '(t1, t2) := ec_roots t p d b0 in t1 <= t2 ∧ ∀ u, A * (u * u) + 2 * B * u + C = A * (u - t1) * (u - t2).
Proof using Ha Hb Hc Hh Hd Hs.
  intros D0. unfold ec_roots. assert (NT : ec_tiny t d = false) by (unfold t; by apply not_tiny). rewrite NT. destruct D_all as [-> _]. cbn [andb]. fold A B C. destruct (A_nonzero ellint a b h c Ha Hb Hc Hh d Hd Hs) as [A0 _]. fold t A in A0. set (D := B * B - A * C) in *. pose proof (sqrt_sqrt D D0) as SS. pose proof (sqrt_pos D) as S0. set (s := R_sqrt.sqrt D) in *. set (k := rcopysign s B). assert (KK : k * k = D) by (unfold k, rcopysign; rewrite (Rabs_pos_eq s) by done; destruct (rltb B 0); rewrite <- SS; ring). set (m := - B - k).
  assert (M : m * m + 2 * B * m + A * C = 0) by (unfold m; replace ((- B - k) * (- B - k) + 2 * B * (- B - k) + A * C) with (k * k - (B * B - A * C)) by ring; rewrite KK; unfold D; ring).
  split; [apply Rle_trans with (m / A); [apply Rmin_l|apply Rmax_l]|]. intros u. set (t2 := if reqb m 0 then 0 else C / m). assert (E : A * (u * u) + 2 * B * u + C = A * (u - m / A) * (u - t2)).
  { unfold t2. destruct (reqb_spec m 0) as [Z|Z].
    - rewrite Z in *. assert (KB : k = - B) by (unfold m in Z; lra). assert (C0 : A * C = 0) by lra. assert (CZ : C = 0) by (apply Rmult_integral in C0; tauto). assert (BZ : B = 0). { unfold k, rcopysign in KB. rewrite (Rabs_pos_eq s) in KB by done. destruct (rltb_spec B 0); lra. } rewrite CZ, BZ. field. done.
    - assert (BE : 2 * B = - (m * m + A * C) / m) by (replace (m * m + A * C) with (- (2 * B * m)) by lra; field; done). rewrite BE. field. split; done. }
  rewrite E. destruct (Rle_dec (m / A) t2) as [L|L]; [rewrite Rmin_left, Rmax_right by lra; done|rewrite Rmin_right, Rmax_left by lra; ring].
Qed.
(** The radius does not fall below its tangent *)
Lemma Br_eq : ec_Br t p d = vx p / a * (vx d / a) + vy p / b * (vy d / b).
Proof using Ha Hb Hc Hh. unfold ec_Br, t. destruct (fields ellint a b h c Ha Hb Hc Hh) as (_ & _ & _ & _ & -> & -> & _). unfold Rdiv. ring. Qed.
Lemma tangent u : e p * e p + u * ec_Br t p d <= e (along p d u) * e p.
Proof using Ha Hb Hc Hh.
  rewrite Br_eq. pose proof (e_nonneg a b p) as N1. pose proof (e_nonneg a b (along p d u)) as N2. pose proof (e_sqr a b p) as S1. pose proof (e_sqr a b (along p d u)) as S2. set (e1 := e p) in *. set (e2 := e (along p d u)) in *. unfold along in S2. cbn [vadd vscale vx vy] in S2. rewrite S1. clearbody e1 e2. unfold Rdiv in *. set (x := vx p * / a) in *. set (y := vy p * / b) in *. set (x' := vx d * / a) in *. set (y' := vy d * / b) in *.
  replace ((vx p + u * vx d) * / a) with (x + u * x') in S2 by (unfold x, x'; ring). replace ((vy p + u * vy d) * / b) with (y + u * y') in S2 by (unfold y, y'; ring). clearbody x y x' y'. apply sqr_le_le; [nra|]. replace (e2 * e1 * (e2 * e1)) with ((e2 * e2) * (e1 * e1)) by ring. rewrite S1, S2. pose proof (Rle_0_sqr (u * (x * y' - y * x'))) as W. unfold Rsqr in W. lra.
Qed.
(** The point is on the axis or off it by more than the kernel takes for the axis *)
Hypothesis Hx : (vx p = 0 ∧ vy p = 0) ∨ 1 / 10 * kHalfTolerance <= Rabs (vx p) + Rabs (vy p).
Let n := if rltb (Rabs (vx p) + Rabs (vy p)) (1 / 10 * kHalfTolerance) then 1 else R_sqrt.sqrt (ec_Ar t p).
Lemma n_cases : (e p = 0 ∧ ec_Br t p d = 0 ∧ n = 1) ∨ (0 < e p ∧ n = e p).
Proof using Ha Hb Hc Hh Hx.
  pose proof kHalfTolerance_pos as T. destruct (pos a b h c Ha Hb Hc Hh) as (A0 & B0 & _). unfold n. rewrite Br_eq. destruct Hx as [[X Y]|X].
  - left. rewrite X, Y, Rabs_R0. destruct (rltb_spec (0 + 0) (1 / 10 * kHalfTolerance)); [|lra]. split; [unfold ell; rewrite X, Y; replace (0 / a * (0 / a) + 0 / b * (0 / b)) with 0 by (field; lra); apply sqrt_0|]. split; [field; lra|done].
  - right. destruct (rltb_spec (Rabs (vx p) + Rabs (vy p)) (1 / 10 * kHalfTolerance)); [lra|]. unfold t. rewrite Ar_eq by done. rewrite sqrt_square by apply e_nonneg. split; [|done]. unfold ell. apply sqrt_lt_R0. pose proof (Rle_0_sqr (vx p / a)) as Q1. pose proof (Rle_0_sqr (vy p / b)) as Q2. unfold Rsqr in *.
    assert (NZ : ∀ v k, 0 < k → v ≠ 0 → 0 < v / k * (v / k)) by (intros v k K V; apply Rsqr_pos_lt; unfold Rdiv; apply Rmult_integral_contrapositive_currified; [done|]; apply Rinv_neq_0_compat; lra). destruct (Req_dec (vx p) 0) as [X0|X0]; [|pose proof (NZ _ a A0 X0); lra]. assert (Y0 : vy p ≠ 0) by (intros Y0; rewrite X0, Y0, Rabs_R0 in X; lra). pose proof (NZ _ b B0 Y0). lra.
Qed.
(** Moving away from the side, or towards it *)
Lemma away u : 0 <= u → 0 <= ec_Br t p d + n * vz d → e p + vz p <= e (along p d u) + vz (along p d u).
Proof using Ha Hb Hc Hh Hx.
  intros U V. replace (vz (along p d u)) with (vz p + u * vz d) by (unfold along; cbn; ring). pose proof (tangent u) as TG. pose proof (e_nonneg a b (along p d u)) as N2. destruct n_cases as [(E & BE & NE)|(E & NE)]; rewrite NE in V.
  - rewrite E. rewrite BE in V. clear - U V N2. nra.
  - set (e1 := e p) in *. set (e2 := e (along p d u)) in *. set (br := ec_Br t p d) in *. clearbody e1 e2 br. apply Rmult_le_reg_r with e1; [done|]. clear - TG U V E. nra.
Qed.
Lemma towards u : u < 0 → ec_Br t p d + n * vz d < 0 → e p + vz p <= e (along p d u) + vz (along p d u).
Proof using Ha Hb Hc Hh Hx.
  intros U V. replace (vz (along p d u)) with (vz p + u * vz d) by (unfold along; cbn; ring). pose proof (tangent u) as TG. pose proof (e_nonneg a b (along p d u)) as N2. destruct n_cases as [(E & BE & NE)|(E & NE)]; rewrite NE in V.
  - rewrite E. rewrite BE in V. clear - U V N2. nra.
  - set (e1 := e p) in *. set (e2 := e (along p d u)) in *. set (br := ec_Br t p d) in *. clearbody e1 e2 br. apply Rmult_le_reg_r with e1; [done|]. clear - TG U V E. nra.
Qed.
Lemma above_mono q : e p + vz p <= e q + vz q → above a b h p <= above a b h q.
Proof using Ha Hb. intros L. unfold above. destruct (tilt_eq a b Ha Hb) as (T & _). apply Rmult_le_compat_l; lra. Qed.
(** From the opposite nappe a flat ray stays out of this one *)
Lemma flying u k : 0 <= u → 0 < A → 0 < vz p - h + k → e p * e p - (vz p - h + k) * (vz p - h + k) <= 0 → 0 <= e (along p d u) + (vz (along p d u) - h + k).
Proof using Ha Hb Hc Hh Hs.
  intros U P K V. apply Rnot_lt_le. intros L. replace (vz (along p d u)) with (vz p + u * vz d) in L by (unfold along; cbn; ring). set (z := vz p - h + k) in *. set (w := vz d) in *. pose proof (e_nonneg a b (along p d u)) as N2. assert (ZU : z + w * u < 0) by (unfold z in *; lra). assert (U0 : 0 < u) by (destruct U as [|<-]; [done|]; rewrite Rmult_0_r in ZU; lra). assert (W : w < 0) by (clear - U0 ZU K; nra).
  set (B' := B - k * w). set (C' := C - 2 * k * (vz p - h) - k * k).
  assert (FE : ∀ v, A * (v * v) + 2 * B' * v + C' = e (along p d v) * e (along p d v) - (z + w * v) * (z + w * v)). { intros v. pose proof (value ellint a b h c Ha Hb Hc Hh p d Hs v) as E. fold t A B C w in E. unfold B', C', z. lra. }
  assert (F0 : C' <= 0). { pose proof (FE 0) as E. replace (along p d 0) with p in E by (apply v3_eq; cbn; ring). replace (z + w * 0) with z in E by ring. lra. }
  assert (FU : A * (u * u) + 2 * B' * u + C' < 0). { rewrite FE. assert (L' : e (along p d u) < - (z + w * u)) by (unfold z in *; lra). set (e2 := e (along p d u)) in *. set (y := z + w * u) in *. clearbody e2 y. clear - L' N2. nra. }
  set (x := - z / w). assert (XE : w * x = - z) by (unfold x; field; lra). assert (X0 : 0 < x) by (clear - XE W K; nra). assert (X1 : x < u) by (clear - XE W ZU; nra). pose proof (FE x) as EX. replace (z + w * x) with 0 in EX by lra. pose proof (Rle_0_sqr (e (along p d x))) as Q. unfold Rsqr in Q.
  assert (GX : 0 <= A * (x * x) + 2 * B' * x + C') by lra. clear - P F0 FU GX X0 X1. assert (u * (A * (x * x) + 2 * B' * x + C') <= x * (A * (u * u) + 2 * B' * u + C') + (u - x) * C'). { assert (0 <= A * (x * u * (u - x))) by (apply Rmult_le_pos; [lra|]; apply Rmult_le_pos; nra). nra. } nra.
Qed.
End Ray.
End Cone.
