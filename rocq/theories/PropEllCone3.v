(** C89: elliptical cones: the way out along a ray. *)
From Coq Require Import Reals Lra Lia Bool ZArith Psatz.
From stdpp Require Import base list option numbers tactics.
From Verif Require Import Real3 AABBModel BoxModel BoxProofs PlanesModel PlanesProofs ConeSpec ConeProofs EllTubeModel EllTubeSpec EllTubeProofs EllTubeProofs2 EllTubeProofs3 TubeProofs PolyconeSpec EllConeModel EllConeSpec EllConeProofs EllConeProofs2 PropEllCone.
Import stdpp.list.
Local Open Scope R_scope.

(** The ray is not parallel to the side: the slopes differ by more than the rounding. *)
Definition slanted (a b : R) (d : v3) : Prop := 2 * / 2 ^ 52 * (vz d * vz d) <= Rabs (ell a b d * ell a b d - vz d * vz d).
(** The radius of a sphere around the origin that holds the solid. *)
Definition econe_reach (a b h c : R) : R := R_sqrt.sqrt (a * (h + c) * (a * (h + c)) + b * (h + c) * (b * (h + c)) + c * c).
Section Cone.
Variable ellint : R -> R.
Variables inf a b h c : R.
Hypothesis Ha : 2 * kTolerance <= a.
Hypothesis Hb : 2 * kTolerance <= b.
Hypothesis Hc : 2 * kTolerance <= c.
Hypothesis Hh : c <= h.
Let t := mk_econe ellint a b h c.
Let S := econe_solid a b h c.
Lemma solid_reach p : S p → vmag p <= econe_reach a b h c.
Proof using Ha Hb Hc Hh ellint.
  intros P. pose proof (C89_extent ellint a b h c Ha Hb Hc Hh) as E. unfold ec_extent in E. destruct (fields ellint a b h c Ha Hb Hc Hh) as (E1 & E2 & E3 & E4 & _). rewrite E1, E2, E3, E4 in E. cbn [vx vy vz] in E. destruct E as (E & _). destruct (E p P) as (X & Y & Z).
  unfold vmag, econe_reach, vdot. apply sqrt_le_1_alt. set (x := a * (h + c)) in *. set (y := b * (h + c)) in *. clearbody x y. clear - X Y Z. assert (vx p * vx p <= x * x) by nra. assert (vy p * vy p <= y * y) by nra. assert (vz p * vz p <= c * c) by nra. lra.
Qed.
Lemma nappe_sqr p : nappe a b h p ↔ vz p - h <= 0 ∧ ell a b p * ell a b p - (vz p - h) * (vz p - h) <= 0.
Proof using.
  unfold nappe. pose proof (e_nonneg a b p) as N. set (e := ell a b p) in *. clearbody e. split; [intros; split; nra|]. intros [P Q]. apply Rnot_lt_le. intros L. nra.
Qed.
Section Ray.
Variables p d : v3.
Hypothesis Hd : vdot d d = 1.
Hypothesis Hs : slanted a b d.
Lemma Ar_eq q : ec_Ar t q = ell a b q * ell a b q.
Proof using Ha Hb Hc Hh. unfold ec_Ar, t. destruct (fields ellint a b h c Ha Hb Hc Hh) as (_ & _ & _ & _ & -> & -> & _). rewrite e_sqr. unfold Rdiv. ring. Qed.
Lemma not_tiny : ec_tiny t d = false.
Proof using Ha Hb Hc Hh Hs.
  unfold ec_tiny. rewrite Ar_eq. unfold slanted in Hs. fold kEpsilon in Hs. destruct (rltb_spec (Rabs (ell a b d * ell a b d - vz d * vz d)) (2 * kEpsilon * (vz d * vz d))); [lra|done].
Qed.
Lemma vz_eq : ec_vz t d = vz d.
Proof using Ha Hb Hc Hh Hs. unfold ec_vz. by rewrite not_tiny. Qed.
Let A := ec_A t d.
Let B := ec_B t p d.
Let C := ec_C t p.
Lemma value u : A * (u * u) + 2 * B * u + C = ell a b (along p d u) * ell a b (along p d u) - (vz p - h + vz d * u) * (vz p - h + vz d * u).
Proof using Ha Hb Hc Hh Hs.
  unfold A, B, C, ec_A, ec_B, ec_C. rewrite vz_eq. rewrite <- Ar_eq. unfold ec_Ar, ec_Br, t. destruct (fields ellint a b h c Ha Hb Hc Hh) as (_ & _ & -> & _ & -> & -> & _). unfold along, vadd, vscale. cbn [vx vy vz]. ring.
Qed.
Lemma A_nonzero : A ≠ 0 ∧ (vz d = 0 → 0 < A).
Proof using Ha Hb Hc Hh Hd Hs.
  assert (E : A = ell a b d * ell a b d - vz d * vz d) by (unfold A, ec_A; rewrite vz_eq, Ar_eq; done). destruct (pos a b h c Ha Hb Hc Hh) as (A0 & B0 & _).
  assert (Z : vz d = 0 → 0 < A). { intros Z. rewrite E, Z. rewrite Rmult_0_r, Rminus_0_r, e_sqr. unfold vdot in Hd. rewrite Z in Hd. pose proof (Rle_0_sqr (vx d / a)) as Q1. pose proof (Rle_0_sqr (vy d / b)) as Q2. unfold Rsqr in *. destruct (Req_dec (vx d) 0) as [X|X].
    - assert (Y : vy d ≠ 0) by (intros Y; rewrite X, Y in Hd; lra). assert (0 < vy d / b * (vy d / b)) by (apply Rsqr_pos_lt; unfold Rdiv; apply Rmult_integral_contrapositive_currified; [done|]; apply Rinv_neq_0_compat; lra). lra.
    - assert (0 < vx d / a * (vx d / a)) by (apply Rsqr_pos_lt; unfold Rdiv; apply Rmult_integral_contrapositive_currified; [done|]; apply Rinv_neq_0_compat; lra). lra. }
  split; [|done]. destruct (Req_dec (vz d) 0) as [W|W]; [specialize (Z W); lra|]. intros A1. unfold slanted in Hs. rewrite <- E, A1, Rabs_R0 in Hs. assert (0 < vz d * vz d) by (apply Rsqr_pos_lt; done). assert (0 < 2 * / 2 ^ 52 * (vz d * vz d)) by (apply Rmult_lt_0_compat; lra). lra.
Qed.
Lemma along_nappe u : nappe a b h (along p d u) ↔ vz p - h + vz d * u <= 0 ∧ A * (u * u) + 2 * B * u + C <= 0.
Proof using Ha Hb Hc Hh Hs.
  rewrite nappe_sqr, value. replace (vz (along p d u) - h) with (vz p - h + vz d * u) by (unfold along; cbn; ring). done.
Qed.
Hypothesis P : S p.
Lemma C_le : C <= 0 ∧ vz p - h <= 0.
Proof using Ha Hb Hc Hh P. destruct P as [_ N]. apply nappe_sqr in N. unfold C, ec_C. rewrite Ar_eq. unfold t. destruct (fields ellint a b h c Ha Hb Hc Hh) as (_ & _ & -> & _). lra. Qed.
Lemma value_nonneg u : 0 <= A * (u * u) + 2 * B * u + C + (vz p - h + vz d * u) * (vz p - h + vz d * u).
Proof using Ha Hb Hc Hh Hs. rewrite value. pose proof (Rle_0_sqr (ell a b (along p d u))) as Q. unfold Rsqr in Q. lra. Qed.
Lemma D_nonneg : 0 <= B * B - A * C.
Proof using Ha Hb Hc Hh Hd Hs P.
  destruct C_le as [HC Hz]. destruct A_nonzero as [A0 AZ]. destruct (Rlt_le_dec 0 A) as [L|L]; [pose proof (Rle_0_sqr B) as Q; unfold Rsqr in Q; clear - Q L HC; nra|]. assert (W : vz d ≠ 0) by (intros W; specialize (AZ W); lra).
  pose proof (value_nonneg (- (vz p - h) / vz d)) as V. set (x := - (vz p - h) / vz d) in *. assert (XE : vz p - h + vz d * x = 0) by (unfold x; field; done). rewrite XE in V. assert (E : A * (A * (x * x) + 2 * B * x + C) = (A * x + B) * (A * x + B) - (B * B - A * C)) by ring. assert (A * (A * (x * x) + 2 * B * x + C) <= 0) by (clear - V L; nra). pose proof (Rle_0_sqr (A * x + B)) as Q. unfold Rsqr in Q. lra.
Qed.
Lemma D_eq : ec_D t p d = B * B - A * C.
Proof using Ha Hb Hc Hh Hd Hs P.
  unfold ec_D. fold A B C. pose proof D_nonneg as D. destruct (rltb_spec (B * B - A * C) 0); [lra|]. by rewrite andb_false_r.
Qed.
Lemma roots b0 : let '(t1, t2) := ec_roots t p d b0 in t1 <= t2 ∧ ∀ u, A * (u * u) + 2 * B * u + C = A * (u - t1) * (u - t2).
Proof using Ha Hb Hc Hh Hd Hs P.
  unfold ec_roots. rewrite not_tiny, D_eq. cbn [andb]. fold A B C. destruct A_nonzero as [A0 _]. pose proof D_nonneg as D0. set (D := B * B - A * C) in *. pose proof (sqrt_sqrt D D0) as SS. pose proof (sqrt_pos D) as S0. set (s := R_sqrt.sqrt D) in *. set (k := rcopysign s B). assert (KK : k * k = D) by (unfold k, rcopysign; rewrite (Rabs_pos_eq s) by done; destruct (rltb B 0); rewrite <- SS; ring). set (m := - B - k).
  assert (M : m * m + 2 * B * m + A * C = 0) by (unfold m; replace ((- B - k) * (- B - k) + 2 * B * (- B - k) + A * C) with (k * k - (B * B - A * C)) by ring; rewrite KK; unfold D; ring).
  split; [apply Rle_trans with (m / A); [apply Rmin_l|apply Rmax_l]|]. intros u. set (t2 := if reqb m 0 then 0 else C / m). assert (E : A * (u * u) + 2 * B * u + C = A * (u - m / A) * (u - t2)).
  { unfold t2. destruct (reqb_spec m 0) as [Z|Z].
    - rewrite Z in *. assert (KB : k = - B) by (unfold m in Z; lra). assert (C0 : A * C = 0) by lra. assert (CZ : C = 0) by (apply Rmult_integral in C0; tauto). assert (BZ : B = 0). { unfold k, rcopysign in KB. rewrite (Rabs_pos_eq s) in KB by done. destruct (rltb_spec B 0); lra. } rewrite CZ, BZ. field. done.
    - assert (BE : 2 * B = - (m * m + A * C) / m) by (replace (m * m + A * C) with (- (2 * B * m)) by lra; field; done). rewrite BE. field. split; done. }
  rewrite E. destruct (Rle_dec (m / A) t2) as [L|L]; [rewrite Rmin_left, Rmax_right by lra; done|rewrite Rmin_right, Rmax_left by lra; ring].
Qed.
(** Leaving: [s] is in the solid, and the parameters in it are those up to [s] *)
Lemma leaves_of s : 0 <= s → (∀ u, 0 <= u → (S (along p d u) ↔ u <= s)) → leaves S p d s.
Proof using. intros S0 E. split; [done|]. split; [intros u U; apply E; lra|]. intros u U I. apply E in I; lra. Qed.
Lemma leaves_zero : (∀ u, 0 < u → ¬ nappe a b h (along p d u)) → leaves S p d 0.
Proof using P.
  intros N. split; [lra|]. split.
  - intros u U. replace (along p d u) with p; [done|]. replace u with 0 by lra. apply v3_eq; cbn; ring.
  - intros u U [_ I]. by apply (N u).
Qed.
Lemma along_slab u : 0 <= u → (Rabs (vz (along p d u)) <= c ↔ vz d = 0 ∨ u <= (rcopysign c (vz d) - vz p) / vz d).
Proof using P.
  intros U. destruct P as [Z _]. replace (vz (along p d u)) with (vz p + u * vz d) by (unfold along; cbn; ring). destruct (Req_dec (vz d) 0) as [W|W]; [rewrite W, Rmult_0_r, Rplus_0_r; tauto|]. rewrite z_out by done. tauto.
Qed.
Lemma slab_nonneg : vz d ≠ 0 → 0 <= (rcopysign c (vz d) - vz p) / vz d.
Proof using P. intros W. destruct P as [Z _]. apply z_out; [done|done|lra|]. by rewrite Rmult_0_l, Rplus_0_r. Qed.
Lemma in_reach u : 2 * econe_reach a b h c <= inf → 0 <= u → S (along p d u) → u <= inf.
Proof using Ha Hb Hc Hh Hd P ellint.
  intros HI U I. destruct (along_mag p d u Hd) as [L _]. rewrite Rabs_pos_eq in L by done. pose proof (solid_reach p P). pose proof (solid_reach _ I). lra.
Qed.
End Ray.
(** DistanceToOut from a point of the solid is the length up to which the ray stays in it, for rays that do not run along the
    side; kInfLength only has to exceed the size of the solid. *)
Theorem C89_to_out p d : vdot d d = 1 → slanted a b d → S p → 2 * econe_reach a b h c <= inf → leaves S p d (ec_to_out inf t p d).
Proof using Ha Hb Hc Hh.
  intros Hd Hs P HI. pose proof kHalfTolerance_pos as T. destruct (C_le p P) as [HC Hz]. destruct (A_nonzero d Hd Hs) as [A0 AZ]. pose proof (value_nonneg p d Hs) as G. pose proof (D_nonneg p d Hd Hs P) as D0.
  pose proof (roots p d Hd Hs P (ec_B0 t p d)) as RT. unfold ec_to_out. rewrite (D_eq p d Hd Hs P), (vz_eq d Hs). set (A := ec_A t d) in *. set (B := ec_B t p d) in *. set (C := ec_C t p) in *.
  destruct (rgtb_spec (Rmax (ec_ds t p) (ec_dz t p)) kHalfTolerance) as [O|_].
  { exfalso. apply solid_above in P; [|done..]. unfold t in O. rewrite ds_eq, dz_eq in O by done. apply max_ge in O. lra. }
  destruct (rltb_spec (B * B - A * C) 0) as [D1|_]; [lra|]. cbn [orb].
  assert (KE : 0 < kEpsilon < / 4) by (unfold kEpsilon; lra).
  assert (NT : rltb (B * B - A * C) (2 * kEpsilon * B * B) && rgeb A 0 = false). { destruct (rgeb_spec A 0) as [L|L]; [|by rewrite andb_false_r]. rewrite andb_true_r. apply rltb_false. assert (0 <= - (A * C)) by (clear - L HC; nra). assert (Q : 0 <= B * B) by (pose proof (Rle_0_sqr B) as Q; done). rewrite (Rmult_assoc (2 * kEpsilon)). clear - H Q KE. nra. }
  rewrite NT. clear NT. destruct (ec_roots t p d (ec_B0 t p d)) as [t1 t2]. destruct RT as [TT F]. unfold t at 1. destruct (fields ellint a b h c Ha Hb Hc Hh) as (_ & _ & HE & CE & _). fold t in HE, CE. rewrite ?HE, ?CE. change (mk_econe ellint a b h c) with t. rewrite ?HE. set (z := vz p - h) in *. set (w := vz d) in *.
  assert (NA : ∀ u, nappe a b h (along p d u) ↔ z + w * u <= 0 ∧ A * (u * u) + 2 * B * u + C <= 0) by (intros u; by apply along_nappe).
  assert (SL : ∀ u, 0 <= u → (Rabs (vz (along p d u)) <= c ↔ w = 0 ∨ u <= (rcopysign c w - vz p) / w)) by (intros u U; by apply along_slab).
  set (tz := if reqb w 0 then inf else (rcopysign c w - vz p) / w).
  assert (FIN : ∀ r, 0 <= r → (∀ u, 0 <= u → (nappe a b h (along p d u) ↔ u <= r)) → leaves S p d (Rmin tz r)).
  { intros r R0 NR. unfold tz. destruct (reqb_spec w 0) as [W|W].
    - assert (I : S (along p d r)) by (split; [apply SL; [done|by left]|apply NR; lra]). pose proof (in_reach p d Hd P r HI R0 I) as L. rewrite Rmin_right by done. apply leaves_of; [done|]. intros u U. unfold S, econe_solid. rewrite SL, NR by done. tauto.
    - pose proof (slab_nonneg p d P W) as Q0. fold w in Q0. apply leaves_of; [apply min_ge; lra|]. intros u U. unfold S, econe_solid. rewrite SL, NR by done. rewrite min_ge. tauto. }
  assert (INF : w ≠ 0 → (∀ u, 0 <= u → nappe a b h (along p d u)) → leaves S p d (Rmin tz inf)).
  { intros W NR. unfold tz. destruct (reqb_spec w 0) as [|_]; [done|]. pose proof (slab_nonneg p d P W) as Q0. fold w in Q0. assert (I : S (along p d ((rcopysign c w - vz p) / w))) by (split; [apply SL; [done|right; lra]|by apply NR]). pose proof (in_reach p d Hd P _ HI Q0 I) as L. rewrite Rmin_left by done. apply leaves_of; [done|]. intros u U. unfold S, econe_solid. rewrite SL by done. pose proof (NR u U). tauto. }
  destruct (rgeb_spec A 0) as [AP|AN]; destruct (rltb_spec A 0) as [AM|AM]; try lra; cbn [andb orb].
  - destruct (rgeb_spec (z + w * t2) 0) as [Z2|Z2]; cbn [orb].
    { apply leaves_zero; [done|]. intros u U. rewrite NA. apply (out_now A B C z w t1 t2); try done; lra. }
    destruct (rgeb_spec z 0) as [Z0|Z0]; [destruct (rgeb_spec w 0) as [W0|W0]|]; cbn [andb].
    { apply leaves_zero; [done|]. intros u U. rewrite NA. apply (out_top A B C z w t1 t2); try done; lra. }
    all: apply FIN; [apply (out_pos A B C z w t1 t2); try done; lra|]; intros u U; rewrite NA; apply (out_flat A B C z w t1 t2); try done; lra.
  - destruct (rgeb_spec z 0) as [Z0|Z0]; [destruct (rgeb_spec w 0) as [W0|W0]|]; cbn [andb].
    { apply leaves_zero; [done|]. intros u U. rewrite NA. apply (out_top A B C z w t1 t2); try done; lra. }
    + destruct (rgtb_spec w 0) as [WP|WP]; [lra|]. apply INF; [lra|]. intros u U. rewrite NA. apply (out_down A B C z w t1 t2); try done; lra.
    + destruct (rgtb_spec w 0) as [WP|WP].
      * apply FIN; [apply (out_up A B C z w t1 t2 A0 G F TT HC Hz 0); try done; lra|]. intros u U. rewrite NA. apply (out_up A B C z w t1 t2); try done; lra.
      * assert (WN : w ≠ 0) by (intros W; specialize (AZ W); lra). apply INF; [done|]. intros u U. rewrite NA. apply (out_down A B C z w t1 t2); try done; lra.
Qed.
(** From farther outside than half a tolerance it is -1. *)
Theorem C89_to_out_outside p d : ec_contains t p = false → ec_to_out inf t p d = -1.
Proof using.
  unfold ec_to_out, ec_contains, ec_kernel. cbn [snd]. by destruct (rgtb (Rmax (ec_ds t p) (ec_dz t p)) kHalfTolerance).
Qed.
End Cone.
Print Assumptions C89_to_out.
Print Assumptions C89_to_out_outside.
(** From the middle of the cone of slope 1 with the apex at 2 cut at 1: sideways 2, and the hypotheses hold. *)
Example cone_leaving ellint : let p := V3 0 0 0 in let d := V3 1 0 0 in vdot d d = 1 ∧ slanted 1 1 d ∧ econe_solid 1 1 2 1 p ∧ ec_to_out 100 (mk_econe ellint 1 1 2 1) p d = 2.
Proof.
  intros p d. assert (T : 0 < kTolerance <= / 1000) by (unfold kTolerance; lra). assert (EL : ∀ u, 0 <= u → ell 1 1 (along p d u) = u). { intros u U. unfold ell, along, p, d. cbn [vadd vscale vx vy]. replace ((0 + u * 1) / 1 * ((0 + u * 1) / 1) + (0 + u * 0) / 1 * ((0 + u * 0) / 1)) with (u * u) by field. by apply sqrt_square. }
  assert (D : vdot d d = 1) by (unfold vdot, d; cbn; ring). assert (SL : slanted 1 1 d). { unfold slanted. replace (vz d) with 0 by done. rewrite !Rmult_0_r, Rminus_0_r. apply Rabs_pos. }
  assert (Z : ∀ u, vz (along p d u) = 0) by (intros u; unfold along, p, d; cbn; ring). assert (IN : ∀ u, 0 <= u → (econe_solid 1 1 2 1 (along p d u) ↔ u <= 2)) by (intros u U; unfold econe_solid, nappe; rewrite (EL u U), Z, Rabs_R0; lra).
  assert (P0 : along p d 0 = p) by (apply v3_eq; cbn; ring). assert (S : econe_solid 1 1 2 1 p) by (rewrite <- P0; apply IN; lra). do 3 (split; [done|]).
  assert (RE : 2 * econe_reach 1 1 2 1 <= 100). { unfold econe_reach. assert (R_sqrt.sqrt (1 * (2 + 1) * (1 * (2 + 1)) + 1 * (2 + 1) * (1 * (2 + 1)) + 1 * 1) <= 50); [|lra]. rewrite <- (sqrt_square 50) by lra. apply sqrt_le_1_alt. lra. }
  destruct (C89_to_out ellint 100 1 1 2 1 ltac:(lra) ltac:(lra) ltac:(lra) ltac:(lra) p d D SL S RE) as (L0 & L1 & L2). set (s := ec_to_out _ _ _ _) in *. apply Rle_antisym.
  - apply IN; [done|]. apply L1. lra.
  - apply Rnot_lt_le. intros L. apply (L2 2 L). apply IN; lra.
Qed.
