(** Paraboloids: classes, extent, convexity, safeties. *)
From Coq Require Import Reals Lra Lia Bool ZArith Psatz.
From stdpp Require Import base list option numbers tactics.
From Verif Require Import Real3 AABBModel BoxModel BoxProofs PlanesModel PlanesProofs ConeSpec ConeProofs EllTubeModel EllTubeProofs TubeProofs ParabModel ParabSpec.
Import stdpp.list.
Local Open Scope R_scope.

Lemma rho_sqr p : pb_r2 p = rho p * rho p.
Proof. apply r2_rho. Qed.
Lemma flat_line p q : (rho p - rho q) * (rho p - rho q) + (vz p - vz q) * (vz p - vz q) <= vdist p q * vdist p q.
Proof.
  unfold vdist. assert (E : vmag (vsub p q) * vmag (vsub p q) = vdot (vsub p q) (vsub p q)) by (unfold vmag; apply sqrt_sqrt; unfold vdot; nra). rewrite E. unfold vdot, vsub. cbn [vx vy vz].
  pose proof (r2_rho p) as P. pose proof (r2_rho q) as Q. pose proof (rho_nonneg p) as P0. pose proof (rho_nonneg q) as Q0.
  assert (C : vx p * vx q + vy p * vy q <= rho p * rho q).
  { apply Rnot_lt_le. intros G. assert (G2 : (rho p * rho q) * (rho p * rho q) < (vx p * vx q + vy p * vy q) * (vx p * vx q + vy p * vy q)) by (assert (0 <= rho p * rho q) by (by apply Rmult_le_pos); nra).
    replace ((rho p * rho q) * (rho p * rho q)) with ((rho p * rho p) * (rho q * rho q)) in G2 by ring. rewrite <- P, <- Q in G2. pose proof (Rle_0_sqr (vx p * vy q - vy p * vx q)) as S2. unfold Rsqr in S2. clear - G2 S2. nra. }
  clear - P Q C. nra.
Qed.
Lemma dot_dist a b x y D : 0 <= D → x * x + y * y <= D * D → a * x + b * y <= R_sqrt.sqrt (a * a + b * b) * D.
Proof.
  intros HD HX. apply Rnot_lt_le. intros G. pose proof (sqrt_pos (a * a + b * b)) as S0. assert (S : R_sqrt.sqrt (a * a + b * b) * R_sqrt.sqrt (a * a + b * b) = a * a + b * b) by (apply sqrt_sqrt; nra). set (s := R_sqrt.sqrt (a * a + b * b)) in *. clearbody s.
  assert (G2 : (s * D) * (s * D) < (a * x + b * y) * (a * x + b * y)) by (assert (0 <= s * D) by (by apply Rmult_le_pos); nra).
  replace ((s * D) * (s * D)) with ((s * s) * (D * D)) in G2 by ring. rewrite S in G2. pose proof (Rle_0_sqr (a * y - b * x)) as S2. unfold Rsqr in S2.
  assert ((a * a + b * b) * (x * x + y * y) <= (a * a + b * b) * (D * D)) by (apply Rmult_le_compat_l; nra). nra.
Qed.

Section Parab.
Variables L H Z : R.
Hypothesis HL : 0 <= L.
Hypothesis HH : L < H.
Hypothesis HZ : 0 < Z.
Let t := mk_parab L H Z.
Let A := steep L H Z.
Lemma sq_less : 0 < H * H - L * L.
Proof using HL HH. nra. Qed.
Lemma A_pos : 0 < A.
Proof using HL HH HZ. unfold A, steep. apply Rdiv_lt_0_compat; [lra|apply sq_less]. Qed.
Lemma A_eq : pb_A t = A.
Proof using HL HH HZ. pose proof sq_less. unfold t, A, steep, mk_parab. cbn [pb_A]. field. lra. Qed.
Lemma invA_eq : pb_invA t = / A.
Proof using HL HH HZ. rewrite <- A_eq. unfold t, mk_parab. cbn [pb_invA pb_A]. unfold Rdiv. rewrite Rmult_1_l. done. Qed.
Lemma bowl_lin z : A * bowl_at L H Z z = z - pb_B t.
Proof using HL HH HZ. pose proof sq_less. unfold t, A, steep, mk_parab, bowl_at. cbn [pb_B]. field. lra. Qed.
Lemma diff_eq p : pb_diff t p = rho p * rho p - bowl_at L H Z (vz p).
Proof using HL HH HZ. pose proof sq_less. unfold pb_diff. rewrite rho_sqr. unfold t, mk_parab, bowl_at. cbn [pb_k1 pb_k2]. field. lra. Qed.
Lemma value_eq p : pb_value t p = A * (rho p * rho p - bowl_at L H Z (vz p)).
Proof using HL HH HZ. unfold pb_value. rewrite rho_sqr, A_eq, Rmult_minus_distr_l, bowl_lin. ring. Qed.
Lemma r0_eq z : (z - pb_B t) * pb_invA t = bowl_at L H Z z.
Proof using HL HH HZ. pose proof A_pos. rewrite invA_eq, <- bowl_lin. field. lra. Qed.
Lemma bowl_slope z z' : A * (bowl_at L H Z z - bowl_at L H Z z') = z - z'.
Proof using HL HH HZ. pose proof A_pos. rewrite Rmult_minus_distr_l, !bowl_lin. ring. Qed.
Lemma bowl_top : bowl_at L H Z Z = H * H.
Proof using HZ. unfold bowl_at. field. lra. Qed.
Lemma bowl_bottom : bowl_at L H Z (- Z) = L * L.
Proof using HZ. unfold bowl_at. field. lra. Qed.
Lemma bowl_range z : Rabs z <= Z → L * L <= bowl_at L H Z z <= H * H.
Proof using HL HH HZ. intros B. apply abs_le in B. rewrite <- bowl_top, <- bowl_bottom. pose proof A_pos. pose proof (bowl_slope Z z). pose proof (bowl_slope z (- Z)). split; nra. Qed.

Lemma contains_iff p : pb_contains t p = true ↔ parab_moved L H Z kTolerance kTolerance p.
Proof using HL HH HZ.
  unfold pb_contains, pb_kernel, parab_moved. rewrite diff_eq. change (pb_dz t) with Z. destruct (rgtb_spec (Rabs (vz p)) (Z + kTolerance)); [cbn; split; [done|lra]|]. destruct (rgtb_spec (rho p * rho p - bowl_at L H Z (vz p)) kTolerance); cbn; split; try done; lra.
Qed.
Lemma inside_out p : pb_inside t p = kOutside ↔ ¬ parab_moved L H Z kTolerance kTolerance p.
Proof using HL HH HZ.
  unfold pb_inside, pb_kernel, parab_moved. rewrite diff_eq. change (pb_dz t) with Z.
  destruct (rgtb_spec (Rabs (vz p)) (Z + kTolerance)); cbn [orb]; [split; [intros _; lra|done]|].
  destruct (rgtb_spec (rho p * rho p - bowl_at L H Z (vz p)) kTolerance); cbn [orb]; [split; [intros _; lra|done]|].
  cbn [andb]. split; [destruct (_ && _); done|]. intros N. exfalso. apply N. lra.
Qed.
Lemma inside_in p : pb_inside t p = kInside ↔ Rabs (vz p) < Z - kTolerance ∧ rho p * rho p < bowl_at L H Z (vz p) - kTolerance.
Proof using HL HH HZ.
  pose proof kTolerance_pos as T. unfold pb_inside, pb_kernel. rewrite diff_eq. change (pb_dz t) with Z.
  destruct (rgtb_spec (Rabs (vz p)) (Z + kTolerance)); cbn [orb]; [split; [done|lra]|].
  destruct (rgtb_spec (rho p * rho p - bowl_at L H Z (vz p)) kTolerance); cbn [orb]; [split; [done|lra]|].
  cbn [andb]. destruct (rltb_spec (Rabs (vz p)) (Z - kTolerance)); cbn [andb]; [|split; [done|lra]]. destruct (rltb_spec (rho p * rho p - bowl_at L H Z (vz p)) (- kTolerance)); cbn; split; try done; lra.
Qed.

Lemma safety_in_le p q : parab_solid L H Z q → pb_safety_in t p <= vdist p q.
Proof using HL HH HZ.
  intros (Qz & Qb). pose proof A_pos as HA. assert (D0 : 0 <= vdist p q) by (unfold vdist, vmag; apply sqrt_pos). assert (SZ : Rabs (vz p) - Z <= vdist p q) by (pose proof (z_diff p q); lra).
  unfold pb_safety_in. change (pb_dz t) with Z. destruct (_ && _); [lra|]. destruct (pb_on_lid t p); [lra|]. destruct (pb_on_side t p); [lra|]. rewrite r0_eq.
  destruct (rltb_spec (bowl_at L H Z (vz p)) 0) as [N|N]; [lra|]. rewrite rho_sqr, sqrt_square by apply rho_nonneg. rewrite A_eq.
  set (r0 := R_sqrt.sqrt (bowl_at L H Z (vz p))). assert (R0 : 0 <= r0) by apply sqrt_pos. assert (R2 : r0 * r0 = bowl_at L H Z (vz p)) by (apply sqrt_sqrt; lra).
  destruct (rltb_spec (rho p - r0) (/ 100000000)) as [G|G]; [lra|]. apply Rmax_lub; [|lra].
  pose proof (flat_line p q) as F. set (m := 2 * A * r0). replace ((Ropp 2) * A * r0) with (- m) by (unfold m; ring).
  assert (M0 : 0 <= m) by (unfold m; apply Rmult_le_pos; lra). assert (S1 : 0 < 1 + - m * - m) by nra. pose proof (sqrt_lt_R0 _ S1) as SP.
  assert (DP : 0 <= rho p - r0) by (assert (0 < / 100000000) by (apply Rinv_0_lt_compat; lra); lra). assert (MS : 0 <= m / R_sqrt.sqrt (1 + - m * - m)) by (apply Rmult_le_pos; [done|left; by apply Rinv_0_lt_compat]).
  assert (NEG : (rho p - r0) * (- m / R_sqrt.sqrt (1 + - m * - m)) = - ((rho p - r0) * (m / R_sqrt.sqrt (1 + - m * - m)))) by (field; lra). rewrite Rabs_left1 by (rewrite NEG; assert (0 <= (rho p - r0) * (m / R_sqrt.sqrt (1 + - m * - m))) by (by apply Rmult_le_pos); lra). clear NEG MS.
  apply Rmult_le_reg_r with (R_sqrt.sqrt (1 + - m * - m)); [done|]. replace (- ((rho p - r0) * (- m / R_sqrt.sqrt (1 + - m * - m))) * R_sqrt.sqrt (1 + - m * - m)) with (m * (rho p - r0)) by (field; lra).
  assert (K : m * (rho q - r0) <= vz q - vz p).
  { unfold bowl in Qb. pose proof (bowl_slope (vz q) (vz p)) as B. rewrite <- R2 in B. assert (A * (rho q * rho q) <= A * bowl_at L H Z (vz q)) by (apply Rmult_le_compat_l; lra). pose proof (Rle_0_sqr (rho q - r0)) as W. unfold Rsqr in W. assert (0 <= A * ((rho q - r0) * (rho q - r0))) by (apply Rmult_le_pos; lra). unfold m. nra. }
  pose proof (dot_dist m (-1) (rho p - rho q) (vz p - vz q) (vdist p q) D0 F) as C. replace (m * m + -1 * -1) with (1 + - m * - m) in C by ring. lra.
Qed.
Lemma safety_out_le p q : ¬ parab_solid L H Z q → pb_safety_out t p <= vdist p q.
Proof using HL HH HZ.
  intros NQ. pose proof A_pos as HA. assert (D0 : 0 <= vdist p q) by (unfold vdist, vmag; apply sqrt_pos). assert (SZ : Rabs (vz q) - Rabs (vz p) <= vdist p q) by (rewrite vdist_comm; apply z_diff).
  unfold pb_safety_out. change (pb_dz t) with Z. destruct (rgtb _ _); [lra|]. destruct (rgtb_spec (pb_value t p) kHalfTolerance) as [|V]; [lra|]. destruct (pb_on_lid t p); [lra|]. destruct (pb_on_side t p); [lra|]. rewrite r0_eq.
  destruct (rltb_spec (bowl_at L H Z (vz p)) 0) as [N|N]; [lra|]. rewrite rho_sqr, sqrt_square by apply rho_nonneg. rewrite A_eq.
  set (r0 := R_sqrt.sqrt (bowl_at L H Z (vz p))). assert (R0 : 0 <= r0) by apply sqrt_pos. assert (R2 : r0 * r0 = bowl_at L H Z (vz p)) by (apply sqrt_sqrt; lra).
  destruct (rgtb_spec (rho p - r0) (- / 100000000)) as [G|G]; [lra|]. assert (G' : rho p < r0) by (assert (0 < / 100000000) by (apply Rinv_0_lt_compat; lra); lra). clear G.
  destruct (Rlt_le_dec Z (Rabs (vz q))) as [Gz|Gz]; [apply Rle_trans with (Z - Rabs (vz p)); [apply Rmin_r|lra]|].
  assert (QB : bowl_at L H Z (vz q) < rho q * rho q) by (apply Rnot_le_lt; intros B; apply NQ; split; done).
  apply Rle_trans with (- (rho p - r0) * Rabs (vz p - (A * (rho p * rho p) + pb_B t)) / R_sqrt.sqrt ((rho p - r0) * (rho p - r0) + Rabs (vz p - (A * (rho p * rho p) + pb_B t)) * Rabs (vz p - (A * (rho p * rho p) + pb_B t)))); [apply Rmin_l|].
  set (a := r0 - rho p). assert (Ha : 0 < a) by (unfold a; lra). pose proof (rho_nonneg p) as P0. pose proof (rho_nonneg q) as Q0.
  assert (Ev : vz p - (A * (rho p * rho p) + pb_B t) = A * (a * (r0 + rho p))). { pose proof (bowl_lin (vz p)) as B. rewrite <- R2 in B. unfold a. nra. }
  rewrite Ev. set (e := A * (a * (r0 + rho p))). assert (He : 0 < e) by (unfold e; apply Rmult_lt_0_compat; [done|]; apply Rmult_lt_0_compat; lra). rewrite (Rabs_pos_eq e) by lra.
  replace (- (rho p - r0)) with a by (unfold a; ring). replace ((rho p - r0) * (rho p - r0)) with (a * a) by (unfold a; ring).
  assert (S1 : 0 < a * a + e * e) by nra. pose proof (sqrt_lt_R0 _ S1) as SP. assert (SS : R_sqrt.sqrt (a * a + e * e) * R_sqrt.sqrt (a * a + e * e) = a * a + e * e) by (apply sqrt_sqrt; lra).
  apply Rnot_lt_le. intros C. apply (Rmult_lt_compat_r _ _ _ SP) in C. replace (a * e / R_sqrt.sqrt (a * a + e * e) * R_sqrt.sqrt (a * a + e * e)) with (a * e) in C by (field; lra).
  pose proof (flat_line p q) as F. set (x := rho q - rho p) in *. set (y := vz p - vz q) in *.
  replace ((rho p - rho q) * (rho p - rho q)) with (x * x) in F by (unfold x; ring).
  assert (F1 : e * x + a * y <= R_sqrt.sqrt (e * e + a * a) * vdist p q) by (by apply dot_dist). assert (F2 : e * 0 + a * y <= R_sqrt.sqrt (e * e + a * a) * vdist p q) by (apply dot_dist; [done|nra]). assert (F3 : e * x + a * 0 <= R_sqrt.sqrt (e * e + a * a) * vdist p q) by (apply dot_dist; [done|nra]).
  replace (e * e + a * a) with (a * a + e * e) in F1, F2, F3 by ring.
  assert (Y : y < e) by (apply Rmult_lt_reg_l with a; [done|lra]). assert (X : x < a) by (apply Rmult_lt_reg_l with e; [done|lra]).
  assert (XY : e * x + a * y < a * e) by lra. clear C F F1 F2 F3 SS SP S1.
  (** the point q is in the bowl *)
  assert (K : A * (rho q * rho q) <= A * bowl_at L H Z (vz q)); [|apply Rmult_le_reg_l in K; lra].
  assert (Bq : A * bowl_at L H Z (vz q) = A * (r0 * r0) - y) by (pose proof (bowl_slope (vz p) (vz q)) as B; rewrite <- R2 in B; unfold y; lra). rewrite Bq.
  assert (Eq : rho q = rho p + x) by (unfold x; ring). assert (Er : r0 = rho p + a) by (unfold a; ring). assert (Ee : e = A * (r0 * r0) - A * (rho p * rho p)) by (unfold e; rewrite Er; ring).
  destruct (Rle_lt_dec x 0) as [X0|X0].
  - assert (rho q * rho q <= rho p * rho p) by (rewrite Eq; nra). assert (A * (rho q * rho q) <= A * (rho p * rho p)) by (apply Rmult_le_compat_l; lra). lra.
  - assert (CV : a * (A * (rho q * rho q)) <= a * (A * (r0 * r0)) - e * (a - x)). { rewrite Ee, Eq, Er. assert (0 <= A * a * (x * (a - x))) by (apply Rmult_le_pos; [apply Rmult_le_pos; lra|apply Rmult_le_pos; lra]). nra. }
    apply Rmult_le_reg_l with a; [done|]. rewrite Rmult_minus_distr_l. lra.
Qed.
Lemma safety_out_sign p : parab_solid L H Z p → 0 <= pb_safety_out t p.
Proof using HL HH HZ.
  intros (Pz & Pb). pose proof A_pos as HA. pose proof kTolerance_pos as T. unfold bowl in Pb. assert (T2 : 0 < kHalfTolerance) by (unfold kHalfTolerance; lra).
  unfold pb_safety_out. change (pb_dz t) with Z. destruct (rgtb_spec (Rabs (vz p)) (Z + kTolerance)); [lra|]. rewrite value_eq. destruct (rgtb_spec (A * (rho p * rho p - bowl_at L H Z (vz p))) kHalfTolerance); [nra|]. destruct (pb_on_lid t p); [lra|]. destruct (pb_on_side t p); [lra|].
  cbv zeta. destruct (rltb ((vz p - pb_B t) * pb_invA t) 0); [lra|]. destruct (rgtb_spec (R_sqrt.sqrt (pb_r2 p) - R_sqrt.sqrt ((vz p - pb_B t) * pb_invA t)) (- / 100000000)) as [G|G]; [lra|]. set (dr := R_sqrt.sqrt (pb_r2 p) - R_sqrt.sqrt ((vz p - pb_B t) * pb_invA t)) in *.
  assert (D : dr < 0) by (assert (0 < / 100000000) by (apply Rinv_0_lt_compat; lra); lra). apply Rmin_glb; [|lra]. set (e := Rabs _). assert (0 <= e) by apply Rabs_pos. apply Rmult_le_pos; [apply Rmult_le_pos; lra|]. left. apply Rinv_0_lt_compat, sqrt_lt_R0. nra.
Qed.
Lemma solid_convex p q u : parab_solid L H Z p → parab_solid L H Z q → 0 <= u <= 1 → parab_solid L H Z (vadd (vscale (1 - u) p) (vscale u q)).
Proof using HL HH HZ.
  intros (Pz & Pb) (Qz & Qb) Hu. apply abs_le in Pz, Qz. unfold bowl in Pb, Qb. split; [apply Rabs_le; cbn; nra|]. unfold bowl. rewrite <- rho_sqr in *. pose proof A_pos as HA.
  apply Rmult_le_reg_l with A; [done|]. apply (Rmult_le_compat_l A) in Pb; [|lra]. apply (Rmult_le_compat_l A) in Qb; [|lra]. rewrite bowl_lin in *. unfold pb_r2 in *. cbn [vadd vscale vx vy vz].
  assert (C : (vx p * vx p + vy p * vy p) * (1 - u) + (vx q * vx q + vy q * vy q) * u - (((1 - u) * vx p + u * vx q) * ((1 - u) * vx p + u * vx q) + ((1 - u) * vy p + u * vy q) * ((1 - u) * vy p + u * vy q)) = (1 - u) * u * ((vx p - vx q) * (vx p - vx q) + (vy p - vy q) * (vy p - vy q))) by ring.
  assert (0 <= (1 - u) * u * ((vx p - vx q) * (vx p - vx q) + (vy p - vy q) * (vy p - vy q))) by (apply Rmult_le_pos; [apply Rmult_le_pos; lra|apply Rplus_le_le_0_compat; apply Rle_0_sqr]).
  set (P := vx p * vx p + vy p * vy p) in *. set (Q := vx q * vx q + vy q * vy q) in *. set (M := ((1 - u) * vx p + u * vx q) * ((1 - u) * vx p + u * vx q) + ((1 - u) * vy p + u * vy q) * ((1 - u) * vy p + u * vy q)) in *. clearbody P Q M. clear Pz Qz.
  assert (M <= P * (1 - u) + Q * u) by lra. assert (A * M <= A * (P * (1 - u) + Q * u)) by (apply Rmult_le_compat_l; lra). nra.
Qed.
End Parab.
