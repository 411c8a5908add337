From Coq Require Import Reals Lra Lia Bool Psatz.
From stdpp Require Import base list option numbers tactics.
From Verif Require Import Real3 AABBModel AABBProofs BoxModel BoxProofs PlanesModel TetModel ConeModel ConeSpec ConeProofs EllTubeModel EllTubeSpec EllTubeProofs.
Import stdpp.list.
Local Open Scope R_scope.

Lemma quad_out A B C u : 0 < A -> C <= 0 -> 0 <= u -> (A * (u * u) + 2 * B * u + C <= 0 <-> A * u <= R_sqrt.sqrt (B * B - A * C) - B).
Proof.
  intros HA HC Hu. assert (HD : B * B <= B * B - A * C) by nra. set (D := B * B - A * C) in *. assert (E : A * (A * (u * u) + 2 * B * u + C) = (A * u + B) * (A * u + B) - D) by (unfold D; ring).
  assert (S : R_sqrt.sqrt D * R_sqrt.sqrt D = D) by (apply sqrt_sqrt; nra). pose proof (sqrt_pos D) as S0. set (s := R_sqrt.sqrt D) in *. set (f := A * (u * u) + 2 * B * u + C) in *. clearbody D s f.
  assert (HB : - s <= B <= s). { clear - HD S S0. split; nra. }
  assert (Hau : 0 <= A * u) by nra. split; intros H.
  - assert (A * f <= 0) by nra. clear - H0 E S S0. nra.
  - assert (Q : (A * u + B) * (A * u + B) <= D) by (clear - H S S0 HB Hau; nra). clear - Q E HA. nra.
Qed.
Lemma quad_root A B C : 0 < A -> C <= 0 -> 0 < B * B - A * C -> 0 <= B -> - C / (R_sqrt.sqrt (B * B - A * C) + B) = (R_sqrt.sqrt (B * B - A * C) - B) / A.
Proof.
  intros HA HC HD HB. pose proof (sqrt_lt_R0 _ HD) as S0. assert (S : R_sqrt.sqrt (B * B - A * C) * R_sqrt.sqrt (B * B - A * C) = B * B - A * C) by (apply sqrt_sqrt; lra). set (s := R_sqrt.sqrt (B * B - A * C)) in *.
  apply Rmult_eq_reg_r with (A * (s + B)); [|apply Rmult_integral_contrapositive; lra]. replace (- C / (s + B) * (A * (s + B))) with (- (A * C)) by (field; lra). replace ((s - B) / A * (A * (s + B))) with (s * s - B * B) by (field; lra). lra.
Qed.
Lemma z_out Z pz w u : Rabs pz <= Z -> w <> 0 -> 0 <= u -> (Rabs (pz + u * w) <= Z <-> u <= (rcopysign Z w - pz) / w).
Proof.
  intros Hp Hw Hu. apply abs_le in Hp. rewrite abs_le. unfold rcopysign. rewrite (Rabs_pos_eq Z) by lra. destruct (rltb_spec w 0) as [N|N].
  - assert (E : (- Z - pz) / w * w = - Z - pz) by (field; lra). set (a := (- Z - pz) / w) in *. clearbody a. split; intros H; nra.
  - assert (E : (Z - pz) / w * w = Z - pz) by (field; lra). set (a := (Z - pz) / w) in *. clearbody a. split; intros H; nra.
Qed.
Section Shape.
Variables X Y Z : R.
Hypothesis HX : 2 * kTolerance <= X.
Hypothesis HY : 2 * kTolerance <= Y.
Hypothesis HZ : 0 <= Z.
Variable perimeter : R -> R -> R.
Notation t := (mk_elltube perimeter X Y Z).
Let m := Rmin X Y.
Let M := Rmax X Y.
Notation e := (ell X Y).
Notation solid := (ell_tube X Y Z).
Let rs := R_sqrt.sqrt (X * X + Y * Y + Z * Z).
Lemma rs_pos : 0 < rs.
Proof using HX HY. pose proof kTolerance_pos. apply sqrt_lt_R0. nra. Qed.
Lemma rs_sqr : rs * rs = X * X + Y * Y + Z * Z.
Proof using. apply sqrt_sqrt. nra. Qed.
Lemma solid_mag q : solid q -> vmag q <= rs.
Proof using HX HY.
  intros [Hz He]. pose proof kTolerance_pos. apply sqrt_le_1_alt. unfold vdot. pose proof (e_sqr X Y q) as E. pose proof (e_nonneg X Y q) as E0. assert (E1 : e q * e q <= 1) by nra. rewrite E in E1. apply abs_le in Hz.
  assert (A : ∀ a L, 0 < L -> a * a = L * L * (a / L * (a / L))) by (intros; field; lra). rewrite (A (vx q) X), (A (vy q) Y) by lra. assert (0 <= vx q / X * (vx q / X)) by nra. assert (0 <= vy q / Y * (vy q / Y)) by nra.
  set (a := vx q / X * (vx q / X)) in *. set (b := vy q / Y * (vy q / Y)) in *. clearbody a b. assert (vz q * vz q <= Z * Z) by nra. assert (X * X * a <= X * X) by nra. assert (Y * Y * b <= Y * Y) by nra. lra.
Qed.
Lemma slant_A d : (vx d * et_sx t) * (vx d * et_sx t) + (vy d * et_sy t) * (vy d * et_sy t) = slant X Y d.
Proof using HX HY. rewrite te by done. cbn. unfold slant. ring. Qed.
Lemma slant_0 d : vdot d d = 1 -> (slant X Y d = 0 <-> Rabs (vz d) >= 1) /\ (slant X Y d = 0 -> vx d = 0 /\ vy d = 0 /\ (vz d = 1 \/ vz d = -1)).
Proof using HX HY.
  intros Hd. unfold vdot in Hd. pose proof kTolerance_pos. pose proof (m_pos' X Y HX HY) as Hm. fold m in Hm.
  assert (S : slant X Y d = 0 -> vx d = 0 /\ vy d = 0). { unfold slant. fold m. intros H0. assert (a0 : m / X * vx d = 0) by nra. assert (b0 : m / Y * vy d = 0) by nra. assert (0 < m / X) by (apply Rdiv_lt_0_compat; lra). assert (0 < m / Y) by (apply Rdiv_lt_0_compat; lra). clear - a0 b0 H1 H2. split; nra. }
  split; [split|].
  - intros [V1 V2]%S. rewrite V1, V2 in Hd. rewrite !Rmult_0_l, !Rplus_0_l in Hd. unfold Rabs. destruct (Rcase_abs (vz d)); nra.
  - intros H1. assert (1 <= vz d * vz d) by (unfold Rabs in H1; destruct (Rcase_abs (vz d)); nra). assert (vx d = 0) by nra. assert (vy d = 0) by nra. unfold slant. rewrite H2, H3. ring.
  - intros [H1 H2]%S. rewrite H1, H2 in Hd. split; [done|]. split; [done|]. rewrite !Rmult_0_l, !Rplus_0_l in Hd. assert (Q : (vz d - 1) * (vz d + 1) = 0) by lra. apply Rmult_integral in Q. lra.
Qed.
Lemma parallel_iff d : vdot d d = 1 -> slant X Y d = 0 \/ kEpsilon <= slant X Y d -> (rltb (slant X Y d) kEpsilon || rgeb (Rabs (vz d)) 1 = true <-> slant X Y d = 0) /\ (0 < slant X Y d \/ slant X Y d = 0).
Proof using HX HY.
  clear perimeter. intros Hd St. destruct (slant_0 d Hd) as [S _]. pose proof kEpsilon_pos. rewrite orb_true_iff. destruct (rltb_spec (slant X Y d) kEpsilon), (rgeb_spec (Rabs (vz d)) 1); split; try tauto; try (destruct St; [by right|left; lra]).
  all: split; intros; try lra; try tauto.
Qed.
Lemma solid_contains p : solid p -> et_contains t p = true.
Proof using HX HY.
  intros [Hz He]. apply contains_moved; [done..|]. pose proof kHalfTolerance_pos. pose proof (m_pos' X Y HX HY). split; [lra|]. assert (0 < kHalfTolerance / Rmin X Y) by (by apply Rdiv_lt_0_compat). lra.
Qed.
Theorem to_out_spec inf p d : vdot d d = 1 -> 2 * rs <= inf -> slant X Y d = 0 \/ kEpsilon <= slant X Y d -> solid p -> leaves solid p d (et_to_out inf t p d).
Proof using HX HY HZ.
  intros Hd Hinf St Hp. pose proof (solid_contains p Hp) as Hc. destruct (parallel_iff d Hd St) as [Pa Sg]. unfold et_to_out. rewrite slant_A.
  unfold et_contains, et_kernel in Hc. cbn [snd] in Hc. destruct (rgtb (Rmax (et_distR t p) (et_distZ t p)) kHalfTolerance); [discriminate|]. clear Hc. replace (et_dz t) with Z by (rewrite te by done; done).
  assert (ZZ : ∀ u, vz (along p d u) = vz p + u * vz d) by done. destruct Hp as [Hz He].
  destruct (rltb (slant X Y d) kEpsilon || rgeb (Rabs (vz d)) 1) eqn:EP.
  { assert (E0 : slant X Y d = 0) by (by apply Pa). destruct (slant_0 d Hd) as [_ S]. destruct (S E0) as (X0 & Y0 & Z1). assert (W : vz d <> 0) by lra. destruct (reqb_spec (vz d) 0); [lra|]. cbn [negb].
    assert (EE : ∀ u, e (along p d u) = e p). { intros u. unfold ell, along. cbn [vx vy vadd vscale]. rewrite X0, Y0, Rmult_0_r, !Rplus_0_r. done. }
    set (s := (rcopysign Z (vz d) - vz p) / vz d). assert (S0 : 0 <= s). { apply (z_out Z (vz p) (vz d) 0 Hz W (Rle_refl 0)). rewrite Rmult_0_l, Rplus_0_r. done. }
    split; [done|]. split; intros u Hu.
    - split; [|by rewrite EE]. rewrite ZZ. apply z_out; [done..|lra|]. fold s. lra.
    - intros [Hz' _]. rewrite ZZ in Hz'. apply z_out in Hz'; [|done..|lra]. fold s in Hz'. lra. }
  assert (A0 : 0 < slant X Y d). { destruct Sg as [?|Z0]; [done|]. apply Pa in Z0. discriminate. } clear Sg EP Pa.
  pose proof (e_along X Y Z HX HY perimeter p d) as EA. cbv zeta in EA. rewrite slant_A in EA. fold m in EA.
  set (A := slant X Y d) in *. set (B := et_x t p * (vx d * et_sx t) + et_y t p * (vy d * et_sy t)) in *. set (C := et_rr t p - et_r t * et_r t) in *.
  assert (C0 : C <= 0). { pose proof (EA 0) as E0. rewrite !Rmult_0_r, !Rplus_0_l in E0. rewrite <- E0. apply (e_le_1 X Y HX HY). unfold along. replace (vadd p (vscale 0 d)) with p by (apply v3_eq; cbn; ring). done. }
  assert (RR : ∀ u, e (along p d u) <= 1 <-> A * (u * u) + 2 * B * u + C <= 0). { intros u. rewrite (e_le_1 X Y HX HY). fold m. rewrite EA. done. }
  set (tz := if negb (reqb (vz d) 0) then (rcopysign Z (vz d) - vz p) / vz d else inf).
  assert (TZ : ∀ u, 0 <= u -> (vz d = 0 /\ tz = inf) \/ (Rabs (vz (along p d u)) <= Z <-> u <= tz)). { intros u Hu. unfold tz. destruct (reqb_spec (vz d) 0) as [W|W]; [by left|]. right. cbn [negb]. rewrite ZZ. by apply z_out. }
  assert (TZ0 : 0 <= tz). { pose proof rs_pos. destruct (TZ 0 (Rle_refl 0)) as [[_ ->]|H0]; [lra|]. apply H0. rewrite ZZ, Rmult_0_l, Rplus_0_r. done. }
  assert (K : ∀ tr, 0 <= tr -> (∀ u, 0 <= u -> (e (along p d u) <= 1 <-> u <= tr)) -> leaves solid p d (Rmin tz tr)).
  { intros tr T0 TR. assert (L : vz d = 0 -> tz = inf -> tr <= tz).
    { intros W ->. assert (Q : solid (along p d tr)) by (split; [rewrite ZZ, W, Rmult_0_r, Rplus_0_r; done|apply TR; lra]). apply solid_mag in Q. pose proof (solid_mag p (conj Hz He)) as Q0. pose proof (vdist_along p d tr Hd T0) as V. pose proof (vdist_triangle p vzero (along p d tr)) as V2. unfold vdist in V2 at 2 3.
      assert (N1 : vmag (vsub p vzero) = vmag p) by (f_equal; apply v3_eq; cbn; ring). assert (N2 : vmag (vsub vzero (along p d tr)) = vmag (along p d tr)) by (unfold vmag; f_equal; unfold vdot; cbn; ring). rewrite N1, N2, V in V2. lra. }
    split; [by apply min_ge|]. split.
    - intros u [U0 U1]. apply min_ge in U1. destruct U1 as [U1 U2]. split; [|by apply TR]. destruct (TZ u U0) as [[W _]|E]; [rewrite ZZ, W, Rmult_0_r, Rplus_0_r; done|by apply E].
    - intros u U [Q1 Q2]. assert (U0 : 0 <= u) by (apply Rle_trans with (Rmin tz tr); [by apply min_ge|lra]). apply TR in Q2; [|done]. apply min_lt in U. destruct U as [U|U]; [|lra]. destruct (TZ u U0) as [[W E]|E]; [specialize (L W E); lra|]. apply E in Q1. lra. }
  assert (QO := quad_out A B C). assert (AD : ∀ u x, A * u <= x <-> u <= x / A). { intros u x. assert (E : x / A * A = x) by (field; lra). set (y := x / A) in *. clearbody y. clear - E A0. split; intros; nra. }
  destruct (rleb_spec (B * B - A * C) 0) as [D0|D0].
  { assert (B0 : B = 0) by (clear - D0 A0 C0; nra). assert (C1 : C = 0) by (clear - D0 A0 C0 B0; nra). assert (L : leaves solid p d (Rmin tz 0)). { apply K; [lra|]. intros u U. rewrite RR, B0, C1. clear - A0 U. split; intros; [|assert (u = 0) as -> by lra; lra]. apply Rnot_lt_le. intros ?. assert (0 < u * u) by nra. nra. } rewrite Rmin_right in L by done. done. }
  assert (TR : ∀ u, 0 <= u -> (e (along p d u) <= 1 <-> u <= (R_sqrt.sqrt (B * B - A * C) - B) / A)). { intros u U. rewrite RR, (QO u) by done. apply AD. }
  assert (T0 : 0 <= (R_sqrt.sqrt (B * B - A * C) - B) / A). { apply TR; [lra|]. unfold along. replace (vadd p (vscale 0 d)) with p by (apply v3_eq; cbn; ring). done. }
  destruct (rgeb_spec B 0) as [B0|B0]; [|by apply K]. rewrite quad_root by (done || lra). by apply K.
Qed.
End Shape.
