(** C85: convexity, extent and normals of tubes. *)
From Coq Require Import Reals Lra Lia Bool ZArith Psatz.
From stdpp Require Import base list option numbers tactics.
From Verif Require Import Real3 AABBModel BoxModel BoxProofs PlanesModel PlanesProofs ConeModel ConeSpec ConeProofs WedgeModel WedgeSpec WedgeProofs WedgeProofs2 TetModel TrdModel PolyconeSpec TubeModel TubeSpec TubeProofs TubeProofs2 TubeProofs3 PropTube2 PropTube3 PropTube4.
Import stdpp.list.
Local Open Scope R_scope.

Section Shape.
Variables m M Z s d : R.
Hypothesis Hm : 0 <= m < M.
Hypothesis HZ : 0 < Z.
Hypothesis Hd : 0 < d <= 2 * PI.
Let t := tube_struct m M Z s d.
Let te : t = tb m M Z s d := tube_struct_eq m M Z s d (proj1 Hm).
(** fGlobalConvexity (DetectConvexity) is true exactly when the tube is convex. *)
Theorem C85_convex : tube_convex t = true ↔ convex (tube_closed m M Z s d).
Proof using Hm HZ Hd.
  pose proof PI_RGT_0 as HPI. rewrite te. unfold tube_convex. cbn [tb tb_rmin tb_dphi]. rewrite andb_true_iff, orb_true_iff.
  assert (E1 : reqb m 0 = true ↔ m = 0) by (destruct (reqb_spec m 0); split; intros; try done; lra). assert (E2 : rleb d PI = true ↔ d <= PI) by (destruct (rleb_spec d PI); split; intros; try done; lra). assert (E3 : reqb d (2 * PI) = true ↔ d = 2 * PI) by (destruct (reqb_spec d (2 * PI)); split; intros; try done; lra).
  rewrite E1, E2, E3. clear E1 E2 E3. split.
  - intros [M0 HD] p q u Cp Cq Hu. destruct Cp as (Az & Ar & As). destruct Cq as (Bz & Br & Bs). unfold tube_closed. cbn [vadd vscale vx vy vz]. split.
    + apply abs_le in Az, Bz. apply Rabs_le. nra.
    + split.
      * split; [rewrite M0; apply rho_nonneg|]. apply (proj1 (sqr_le _ M (rho_nonneg _) ltac:(lra))). rewrite <- r2_rho. cbn [vadd vscale vx vy vz].
        pose proof (r2_rho p) as P1. pose proof (r2_rho q) as Q1. pose proof (rho_nonneg p) as P0. pose proof (rho_nonneg q) as Q0. assert (PQ : vx p * vx q + vy p * vy q <= rho p * rho q).
        { apply Rnot_lt_le. intros L. assert (S1 : (rho p * rho q) * (rho p * rho q) < (vx p * vx q + vy p * vy q) * (vx p * vx q + vy p * vy q)) by (assert (0 <= rho p * rho q) by (by apply Rmult_le_pos); nra).
          replace ((rho p * rho q) * (rho p * rho q)) with ((rho p * rho p) * (rho q * rho q)) in S1 by ring. rewrite <- P1, <- Q1 in S1. pose proof (Rle_0_sqr (vx p * vy q - vy p * vx q)) as S2. unfold Rsqr in S2. nra. }
        set (A := rho p) in *. set (B := rho q) in *. apply Rle_trans with (((1 - u) * A + u * B) * ((1 - u) * A + u * B)); [|assert (0 <= (1 - u) * A + u * B <= M) by nra; nra].
        replace (((1 - u) * vx p + u * vx q) * ((1 - u) * vx p + u * vx q) + ((1 - u) * vy p + u * vy q) * ((1 - u) * vy p + u * vy q)) with ((1 - u) * (1 - u) * (vx p * vx p + vy p * vy p) + 2 * ((1 - u) * u) * (vx p * vx q + vy p * vy q) + u * u * (vx q * vx q + vy q * vy q)) by ring.
        rewrite P1, Q1. assert (0 <= (1 - u) * u) by nra. nra.
      * intros P. destruct HD as [HD|HD]; [|lra]. apply sector_convex; [lra|by apply As|by apply Bs|done].
  - intros C. assert (PT : ∀ r phi, m <= r <= M → s <= phi <= s + d → tube_closed m M Z s d (V3 (r * cos phi) (r * sin phi) 0)).
    { intros r phi R0 PH. split; [cbn [vz]; rewrite Rabs_R0; lra|]. rewrite rho_polar by lra. split; [lra|]. intros _. exists phi. split; [done|]. exists r. split; [lra|done]. }
    assert (MID : ∀ r, m <= r <= M → tube_closed m M Z s d (V3 (r * cos (d / 2) * cos (s + d / 2)) (r * cos (d / 2) * sin (s + d / 2)) 0)).
    { intros r R0. pose proof (C _ _ (1 / 2) (PT r s R0 ltac:(lra)) (PT r (s + d) R0 ltac:(lra)) ltac:(lra)) as K. unfold vadd, vscale in K. cbn [vx vy vz] in K.
      assert (T1 : cos s + cos (s + d) = 2 * cos (d / 2) * cos (s + d / 2)). { replace s with ((s + d / 2) - d / 2) at 1 by ring. replace (s + d) with ((s + d / 2) + d / 2) by field. rewrite (cos_minus (s + d / 2) (d / 2)), (cos_plus (s + d / 2) (d / 2)). ring. }
      assert (T2 : sin s + sin (s + d) = 2 * cos (d / 2) * sin (s + d / 2)). { replace s with ((s + d / 2) - d / 2) at 1 by ring. replace (s + d) with ((s + d / 2) + d / 2) by field. rewrite (sin_minus (s + d / 2) (d / 2)), (sin_plus (s + d / 2) (d / 2)). ring. }
      replace ((1 - 1 / 2) * (r * cos s) + 1 / 2 * (r * cos (s + d))) with (r * cos (d / 2) * cos (s + d / 2)) in K by (replace (cos (s + d)) with (2 * cos (d / 2) * cos (s + d / 2) - cos s) by lra; field).
      replace ((1 - 1 / 2) * (r * sin s) + 1 / 2 * (r * sin (s + d))) with (r * cos (d / 2) * sin (s + d / 2)) in K by (replace (sin (s + d)) with (2 * cos (d / 2) * sin (s + d / 2) - sin s) by lra; field).
      replace ((1 - 1 / 2) * 0 + 1 / 2 * 0) with 0 in K by field. exact K. }
    split.
    + destruct (Rle_lt_or_eq_dec 0 m ltac:(lra)) as [L|L]; [exfalso|done]. destruct (Rle_lt_or_eq_dec d (2 * PI) ltac:(lra)) as [P|P].
      * specialize (MID m ltac:(lra)). destruct MID as (_ & (K & _) & _). assert (CS : cos (d / 2) * cos (d / 2) < 1). { assert (0 < sin (d / 2)) by (apply sin_gt_0; lra). pose proof (sin2_cos2 (d / 2)) as E. unfold Rsqr in E. nra. }
        apply (proj2 (sqr_le m _ ltac:(lra) (rho_nonneg _))) in K. rewrite rho_sq in K. pose proof (sin2_cos2 (s + d / 2)) as E. unfold Rsqr in E. set (c := cos (d / 2)) in *. set (a := cos (s + d / 2)) in *. set (b := sin (s + d / 2)) in *.
        replace (m * c * a * (m * c * a) + m * c * b * (m * c * b)) with (m * m * (c * c) * (b * b + a * a)) in K by ring. rewrite E in K. assert (0 < m * m) by nra. nra.
      * pose proof (C _ _ (1 / 2) (PT m s ltac:(lra) ltac:(lra)) (PT m (s + PI) ltac:(lra) ltac:(lra)) ltac:(lra)) as K. unfold vadd, vscale in K. cbn [vx vy vz] in K. rewrite neg_cos, neg_sin in K. destruct K as (_ & (K & _) & _). rewrite (rho_at _ _ _ 0) in K by lra. lra.
    + destruct (Rle_lt_or_eq_dec d (2 * PI) ltac:(lra)) as [P|P]; [left|by right]. apply Rnot_lt_le. intros L. destruct (MID M ltac:(lra)) as (_ & _ & K). specialize (K P). cbn [vx vy] in K. apply by_sides' in K as [_ K]; [|lra]. specialize (K L).
      rewrite !side_polar in K. replace (s + d / 2 - s) with (d / 2) in K by ring. replace (s + d / 2 - (s + d)) with (- (d / 2)) in K by field. rewrite sin_neg in K.
      assert (S1 : 0 < sin (d / 2)) by (apply sin_gt_0; lra). assert (S2 : cos (d / 2) < 0) by (apply cos_lt_0; lra). assert (M * cos (d / 2) < 0) by nra. destruct K; nra.
Qed.
(** Turning points of the cosine: the largest value on a range of angles is at one of its ends unless it holds a full turn. *)
Lemma cos_ends a phi : s <= phi <= s + d → (∀ j : BinNums.Z, ¬ s <= a + 2 * IZR j * PI <= s + d) → cos (phi - a) <= Rmax (cos (s - a)) (cos (s + d - a)).
Proof using.
  clear. intros PH N. pose proof PI_RGT_0 as HPI. set (j := (up ((s - a) / (2 * PI)) - 1)%Z).
  assert (J : IZR j * (2 * PI) <= s - a < (IZR j + 1) * (2 * PI)).
  { destruct (archimed ((s - a) / (2 * PI))) as [A1 A2]. assert (E : (s - a) / (2 * PI) * (2 * PI) = s - a) by (field; lra). unfold j. rewrite minus_IZR. set (x := (s - a) / (2 * PI)) in *. set (y := IZR (up x)) in *. split; nra. }
  assert (N1 := N j). assert (N2 := N (j + 1)%Z). rewrite plus_IZR in N2. set (k := IZR j) in *.
  assert (Lo : k * (2 * PI) < s - a) by (apply Rnot_le_lt; intros L; apply N1; lra). assert (Hi : s + d - a < (k + 1) * (2 * PI)) by (apply Rnot_le_lt; intros L; apply N2; lra).
  assert (CT : ∀ x, cos (x - k * (2 * PI)) = cos x). { intros x. destruct (cos_turns (x - k * (2 * PI)) j) as [E _]. rewrite <- E. f_equal. unfold k. ring. }
  rewrite <- (CT (phi - a)), <- (CT (s - a)), <- (CT (s + d - a)). set (x := phi - a - k * (2 * PI)). set (lo := s - a - k * (2 * PI)). set (hi := s + d - a - k * (2 * PI)).
  assert (B1 : 0 < lo <= x) by (unfold lo, x; lra). assert (B2 : x <= hi < 2 * PI) by (unfold hi, x; lra). destruct (Rle_dec x PI) as [L|L].
  - eapply Rle_trans; [|apply Rmax_l]. apply cos_decr_1; lra.
  - eapply Rle_trans; [|apply Rmax_r]. apply cos_incr_1; lra.
Qed.
(** For half a turn or more one of the ends does not look away. *)
Lemma wide_ends a : PI <= d → (∀ j : BinNums.Z, ¬ s <= a + 2 * IZR j * PI <= s + d) → 0 <= Rmax (cos (s - a)) (cos (s + d - a)).
Proof using.
  clear. intros L N. assert (K := cos_ends a (s + d / 2)). pose proof PI_RGT_0 as HPI. set (j := (up ((s - a) / (2 * PI)) - 1)%Z).
  assert (J : IZR j * (2 * PI) <= s - a < (IZR j + 1) * (2 * PI)).
  { destruct (archimed ((s - a) / (2 * PI))) as [A1 A2]. assert (E : (s - a) / (2 * PI) * (2 * PI) = s - a) by (field; lra). unfold j. rewrite minus_IZR. set (x := (s - a) / (2 * PI)) in *. set (y := IZR (up x)) in *. split; nra. }
  assert (N1 := N j). assert (N2 := N (j + 1)%Z). rewrite plus_IZR in N2. set (k := IZR j) in *.
  assert (Lo : k * (2 * PI) < s - a) by (apply Rnot_le_lt; intros W; apply N1; lra). assert (Hi : s + d - a < (k + 1) * (2 * PI)) by (apply Rnot_le_lt; intros W; apply N2; lra).
  assert (CT : ∀ x, cos (x - k * (2 * PI)) = cos x). { intros x. destruct (cos_turns (x - k * (2 * PI)) j) as [E _]. rewrite <- E. f_equal. unfold k. ring. }
  rewrite <- (CT (s - a)), <- (CT (s + d - a)). set (lo := s - a - k * (2 * PI)). set (hi := s + d - a - k * (2 * PI)). assert (B : 0 < lo ∧ hi < 2 * PI ∧ hi = lo + d) by (unfold lo, hi; lra).
  destruct (Rle_dec lo (PI / 2)) as [W|W].
  - eapply Rle_trans; [|apply Rmax_l]. apply cos_ge_0; lra.
  - eapply Rle_trans; [|apply Rmax_r]. replace hi with (hi - 2 * PI + 2 * PI) by ring. rewrite cos_plus, cos_2PI, sin_2PI, Rmult_1_r, Rmult_0_r, Rminus_0_r. apply cos_ge_0; lra.
Qed.
(** What the extent says in the direction [a]: the largest coordinate along it. *)
Definition reach (a : R) : R :=
  if wedge_contains (mk_wedge d s) ((1 / 2) * (M + m) * cos a) ((1 / 2) * (M + m) * sin a) then M
  else let c := Rmax (M * cos (s - a)) (M * cos (s + d - a)) in if rgeb d PI then c else Rmax c (Rmax (m * cos (s - a)) (m * cos (s + d - a))).
Lemma cos_scale r a b : 0 <= r → Rmax (r * a) (r * b) = r * Rmax a b.
Proof using. clear. intros H. destruct (Rle_dec a b) as [L|L]; [rewrite !Rmax_right; [done|lra|nra]|rewrite !Rmax_left; [done|lra|nra]]. Qed.
Lemma reach_spec a : d < 2 * PI → (∀ p, tube_closed m M Z s d p → ahead a (vx p) (vy p) <= reach a) ∧ ∃ p, tube_closed m M Z s d p ∧ ahead a (vx p) (vy p) = reach a.
Proof using Hm HZ Hd.
  intros P. pose proof PI_RGT_0 as HPI. assert (AP : ∀ r phi, ahead a (r * cos phi) (r * sin phi) = r * cos (phi - a)) by (intros; unfold ahead; rewrite cos_minus; ring).
  assert (PT : ∀ r phi, m <= r <= M → s <= phi <= s + d → tube_closed m M Z s d (V3 (r * cos phi) (r * sin phi) 0)).
  { intros r phi R0 PH. split; [cbn [vz]; rewrite Rabs_R0; lra|]. rewrite rho_polar by lra. split; [lra|]. intros _. exists phi. split; [done|]. exists r. split; [lra|done]. }
  assert (TP : ∀ p, tube_closed m M Z s d p → ∃ r phi, m <= r <= M ∧ s <= phi <= s + d ∧ vx p = r * cos phi ∧ vy p = r * sin phi).
  { intros p (_ & R0 & S0). destruct (S0 P) as (phi & PH & r & R1 & Ex & Ey). exists r, phi. split; [|done]. assert (rho p = r) by (destruct p as [x y z]; cbn [vx vy] in Ex, Ey; rewrite Ex, Ey; by apply rho_polar). lra. }
  unfold reach. destruct (wedge_contains (mk_wedge d s) _ _) eqn:W.
  - apply wedge_contains_sector in W; [|done]. destruct W as (phi & PH & r & R0 & Ex & Ey). assert (RR : r = 1 / 2 * (M + m)).
    { assert (E1 : rho (V3 (1 / 2 * (M + m) * cos a) (1 / 2 * (M + m) * sin a) 0) = 1 / 2 * (M + m)) by (apply rho_polar; lra). rewrite Ex, Ey in E1. rewrite rho_polar in E1; done. }
    assert (CC : cos (phi - a) = 1). { rewrite RR in Ex, Ey. apply Rmult_eq_reg_l in Ex; [|lra]. apply Rmult_eq_reg_l in Ey; [|lra]. rewrite cos_minus, <- Ex, <- Ey. pose proof (sin2_cos2 a) as E. unfold Rsqr in E. lra. }
    split.
    + intros p Cp. destruct (TP p Cp) as (r' & phi' & R1 & _ & -> & ->). rewrite AP. pose proof (COS_bound (phi' - a)). nra.
    + exists (V3 (M * cos phi) (M * sin phi) 0). split; [apply PT; lra|]. cbn [vx vy]. rewrite AP, CC. ring.
  - assert (N : ∀ j : BinNums.Z, ¬ s <= a + 2 * IZR j * PI <= s + d).
    { intros j J. apply not_true_iff_false in W. apply W. apply wedge_contains_sector; [done|]. exists (a + 2 * IZR j * PI). split; [done|]. exists (1 / 2 * (M + m)). destruct (cos_turns a j) as [-> ->]. split; [lra|done]. }
    clear W. cbv zeta. rewrite !cos_scale by lra. set (c := Rmax (cos (s - a)) (cos (s + d - a))). assert (CE : c = cos (s - a) ∨ c = cos (s + d - a)) by (unfold c, Rmax; destruct (Rle_dec _ _); auto).
    assert (UP : ∀ r phi, 0 <= r → s <= phi <= s + d → r * cos (phi - a) <= r * c). { intros r phi R0 PH. apply Rmult_le_compat_l; [done|]. by apply cos_ends. }
    assert (AT : ∀ r, m <= r <= M → ∃ p, tube_closed m M Z s d p ∧ ahead a (vx p) (vy p) = r * c).
    { intros r R0. destruct CE as [E|E]; rewrite E; [exists (V3 (r * cos s) (r * sin s) 0)|exists (V3 (r * cos (s + d)) (r * sin (s + d)) 0)]; (split; [apply PT; lra|]); cbn [vx vy]; by rewrite AP. }
    destruct (rgeb_spec d PI) as [G|G].
    + pose proof (wide_ends a ltac:(lra) N) as C0. fold c in C0. split; [|apply AT; lra]. intros p Cp. destruct (TP p Cp) as (r' & phi' & R1 & PH & -> & ->). rewrite AP. specialize (UP r' phi' ltac:(lra) PH). nra.
    + split.
      * intros p Cp. destruct (TP p Cp) as (r' & phi' & R1 & PH & -> & ->). rewrite AP. specialize (UP r' phi' ltac:(lra) PH). destruct (Rle_dec 0 c) as [C0|C0]; [eapply Rle_trans; [|apply Rmax_l]; nra|eapply Rle_trans; [|apply Rmax_r]; nra].
      * destruct (Rle_dec (m * c) (M * c)) as [L|L]; [rewrite Rmax_left by done; apply AT; lra|rewrite Rmax_right by lra; apply AT; lra].
Qed.
Lemma extent_cut : d < 2 * PI → tube_extent t = (V3 (- reach PI) (- reach (3 * (PI / 2))) (- Z), V3 (reach 0) (reach (PI / 2)) Z).
Proof using Hm HZ Hd.
  intros P. rewrite te. unfold tube_extent. cbn [tb tb_rmin tb_rmax tb_dphi tb_z tb_sphi tb_wedge]. destruct (reqb_spec d (2 * PI)); [lra|]. unfold reach.
  assert (C3 : cos (3 * (PI / 2)) = 0 ∧ sin (3 * (PI / 2)) = -1). { replace (3 * (PI / 2)) with (PI / 2 + PI) by field. rewrite cos_3PI2, sin_3PI2. done. } destruct C3 as [C3 S3].
  assert (A1 : ∀ x, cos (x - 0) = cos x) by (intros; f_equal; ring). assert (A2 : ∀ x, cos (x - PI / 2) = sin x) by (intros; rewrite cos_minus, cos_PI2, sin_PI2; ring). assert (A3 : ∀ x, cos (x - PI) = - cos x) by (intros; rewrite cos_minus, cos_PI, sin_PI; ring). assert (A4 : ∀ x, cos (x - 3 * (PI / 2)) = - sin x) by (intros; rewrite cos_minus, C3, S3; ring).
  rewrite !A1, !A2, !A3, !A4, cos_0, sin_0, cos_PI2, sin_PI2, cos_PI, sin_PI, C3, S3. set (rin := 1 / 2 * (M + m)). rewrite !Rmult_1_r, !Rmult_0_r. replace (rin * -1) with (- rin) by ring.
  assert (B : ∀ x, -1 <= x <= 1 → - M <= m * x <= M) by (intros; nra). pose proof (B _ (COS_bound s)) as B1. pose proof (B _ (COS_bound (s + d))) as B2. pose proof (B _ (SIN_bound s)) as B3. pose proof (B _ (SIN_bound (s + d))) as B4. clear B.
  rewrite !Ropp_mult_distr_r_reverse. set (x1 := M * cos s). set (x2 := M * cos (s + d)). set (y1 := M * sin s). set (y2 := M * sin (s + d)). set (u1 := m * cos s) in *. set (u2 := m * cos (s + d)) in *. set (v1 := m * sin s) in *. set (v2 := m * sin (s + d)) in *. clearbody x1 x2 y1 y2 u1 u2 v1 v2.
  assert (X0 : ∀ a b, Rmin a b = - Rmax (- a) (- b)) by (intros; unfold Rmin, Rmax; repeat destruct (Rle_dec _ _); lra). assert (X1 : ∀ a b, - M <= a <= M → - M <= b <= M → Rmax M (Rmax a b) = M) by (intros; unfold Rmax; repeat destruct (Rle_dec _ _); lra). assert (X2 : ∀ a b, - M <= a <= M → - M <= b <= M → Rmin (- M) (Rmin a b) = - M) by (intros; unfold Rmin; repeat destruct (Rle_dec _ _); lra).
  destruct (wedge_contains (mk_wedge d s) rin 0), (wedge_contains (mk_wedge d s) 0 rin), (wedge_contains (mk_wedge d s) (- rin) 0), (wedge_contains (mk_wedge d s) 0 (- rin)); cbn [negb orb vx vy vz]; destruct (rgeb d PI);
    rewrite ?max_of, ?min_of, ?X1, ?X2, ?X0, ?Ropp_involutive by done; try done.
Qed.
(** Extent: the smallest box. *)
Theorem C85_extent : let '(lo, hi) := tube_extent t in
  (∀ p, tube_closed m M Z s d p → vx lo <= vx p <= vx hi ∧ vy lo <= vy p <= vy hi ∧ vz lo <= vz p <= vz hi) ∧
  (∃ p, tube_closed m M Z s d p ∧ vx p = vx lo) ∧ (∃ p, tube_closed m M Z s d p ∧ vx p = vx hi) ∧ (∃ p, tube_closed m M Z s d p ∧ vy p = vy lo) ∧ (∃ p, tube_closed m M Z s d p ∧ vy p = vy hi) ∧
  (∃ p, tube_closed m M Z s d p ∧ vz p = vz lo) ∧ (∃ p, tube_closed m M Z s d p ∧ vz p = vz hi).
Proof using Hm HZ Hd.
  pose proof PI_RGT_0 as HPI. assert (ZZ : ∀ p, tube_closed m M Z s d p → - Z <= vz p <= Z) by (intros p (A & _); by apply abs_le).
  assert (PZ : ∀ z, Rabs z <= Z → tube_closed m M Z s d (V3 (M * cos s) (M * sin s) z)).
  { intros z A. split; [done|]. rewrite rho_polar by lra. split; [lra|]. intros _. exists s. split; [lra|]. exists M. split; [lra|done]. }
  assert (Z1 : ∃ p, tube_closed m M Z s d p ∧ vz p = - Z) by (eexists; split; [apply (PZ (- Z)); rewrite Rabs_Ropp, Rabs_pos_eq; lra|done]). assert (Z2 : ∃ p, tube_closed m M Z s d p ∧ vz p = Z) by (eexists; split; [apply (PZ Z); rewrite Rabs_pos_eq; lra|done]).
  assert (C3 : cos (3 * (PI / 2)) = 0 ∧ sin (3 * (PI / 2)) = -1). { replace (3 * (PI / 2)) with (PI / 2 + PI) by field. rewrite cos_3PI2, sin_3PI2. done. } destruct C3 as [C3 S3].
  assert (A1 : ∀ x y, ahead 0 x y = x) by (intros; unfold ahead; rewrite cos_0, sin_0; ring). assert (A2 : ∀ x y, ahead (PI / 2) x y = y) by (intros; unfold ahead; rewrite cos_PI2, sin_PI2; ring).
  assert (A3 : ∀ x y, ahead PI x y = - x) by (intros; unfold ahead; rewrite cos_PI, sin_PI; ring). assert (A4 : ∀ x y, ahead (3 * (PI / 2)) x y = - y) by (intros; unfold ahead; rewrite C3, S3; ring).
  assert (R : ∀ lx ly hx hy, (∀ p, tube_closed m M Z s d p → ahead 0 (vx p) (vy p) <= hx) → (∀ p, tube_closed m M Z s d p → ahead (PI / 2) (vx p) (vy p) <= hy) → (∀ p, tube_closed m M Z s d p → ahead PI (vx p) (vy p) <= lx) → (∀ p, tube_closed m M Z s d p → ahead (3 * (PI / 2)) (vx p) (vy p) <= ly) →
    ∀ p, tube_closed m M Z s d p → - lx <= vx p <= hx ∧ - ly <= vy p <= hy ∧ - Z <= vz p <= Z).
  { intros lx ly hx hy H1 H2 H3 H4 p Cp. specialize (H1 p Cp). specialize (H2 p Cp). specialize (H3 p Cp). specialize (H4 p Cp). specialize (ZZ p Cp). rewrite A1 in H1. rewrite A2 in H2. rewrite A3 in H3. rewrite A4 in H4. lra. }
  destruct (Rle_lt_or_eq_dec d (2 * PI) ltac:(lra)) as [P|P].
  - rewrite extent_cut by done. cbn [vx vy vz]. destruct (reach_spec 0 P) as [X1 (p1 & Y1 & W1)]. destruct (reach_spec (PI / 2) P) as [X2 (p2 & Y2 & W2)]. destruct (reach_spec PI P) as [X3 (p3 & Y3 & W3)]. destruct (reach_spec (3 * (PI / 2)) P) as [X4 (p4 & Y4 & W4)].
    rewrite A1 in W1. rewrite A2 in W2. rewrite A3 in W3. rewrite A4 in W4. split; [by apply R|]. split; [exists p3; split; [done|lra]|]. split; [exists p1; done|]. split; [exists p4; split; [done|lra]|]. split; [exists p2; done|]. done.
  - rewrite te. unfold tube_extent. cbn [tb tb_rmin tb_rmax tb_dphi tb_z tb_sphi tb_wedge]. destruct (reqb_spec d (2 * PI)); [|lra]. cbn [vx vy vz].
    assert (FP : ∀ x y, x * x + y * y = M * M → tube_closed m M Z s d (V3 x y 0)). { intros x y E. split; [cbn [vz]; rewrite Rabs_R0; lra|]. rewrite (rho_at _ _ _ M) by lra. split; [lra|intros; lra]. }
    assert (B : ∀ a p, tube_closed m M Z s d p → ahead a (vx p) (vy p) <= M).
    { intros a p (_ & Cr & _). pose proof (r2_rho p) as E. pose proof (rho_nonneg p). pose proof (sin2_cos2 a) as E1. unfold Rsqr in E1. unfold ahead. apply Rle_trans with (rho p); [|lra]. apply Rnot_lt_le. intros L. set (x := vx p) in *. set (y := vy p) in *. set (c := cos a) in *. set (g := sin a) in *. set (r := rho p) in *. clearbody x y c g r. clear - L E E1 H.
      assert (Q : r * r < (x * c + y * g) * (x * c + y * g)) by nra. assert (Q2 : (x * c + y * g) * (x * c + y * g) + (x * g - y * c) * (x * g - y * c) = (x * x + y * y) * (g * g + c * c)) by ring. rewrite E, E1 in Q2. pose proof (Rle_0_sqr (x * g - y * c)) as Q3. unfold Rsqr in Q3. lra. }
    split; [by apply R; apply B|]. split; [exists (V3 (- M) 0 0); split; [apply FP; ring|done]|]. split; [exists (V3 M 0 0); split; [apply FP; ring|done]|]. split; [exists (V3 0 (- M) 0); split; [apply FP; ring|done]|]. split; [exists (V3 0 M 0); split; [apply FP; ring|done]|]. done.
Qed.
(** The normals of the six pieces, outwards. *)
Definition piece_normal (i : nat) (p : v3) : v3 :=
  match i with 0%nat => V3 0 0 1 | 1%nat => V3 0 0 (-1) | 2%nat => V3 (sin s) (- cos s) 0 | 3%nat => V3 (- sin (s + d)) (cos (s + d)) 0
  | 4%nat => V3 (- vx p / rho p) (- vy p / rho p) 0 | _ => V3 (vx p / rho p) (vy p / rho p) 0 end.
(** Within a tolerance of the piece. *)
Definition near_piece (i : nat) (p : v3) : Prop :=
  match i with
  | 0%nat => m - kTolerance <= rho p <= M + kTolerance ∧ Rabs (vz p - Z) <= kTolerance
  | 1%nat => m - kTolerance <= rho p <= M + kTolerance ∧ Rabs (vz p + Z) <= kTolerance
  | 2%nat => d < 2 * PI ∧ m - kTolerance <= rho p <= M + kTolerance ∧ near_line kTolerance s (vx p) (vy p)
  | 3%nat => d < 2 * PI ∧ m - kTolerance <= rho p <= M + kTolerance ∧ near_line kTolerance (s + d) (vx p) (vy p)
  | 4%nat => 0 < m ∧ Rabs (vz p) < Z + kTolerance ∧ Rabs (rho p - m) <= kTolerance
  | 5%nat => Rabs (vz p) < Z + kTolerance ∧ Rabs (rho p - M) <= kTolerance
  | _ => False
  end.
Definition near_sum (l : list nat) (p : v3) : v3 := foldr vadd vzero (List.map (λ i, piece_normal i p) l).
Lemma add_all (b0 b1 b2 b3 b4 b5 : bool) (n0 n1 n2 n3 n4 n5 : v3) :
  let add (b : bool) (n : v3) (acc : nat * v3) := if b then (Datatypes.S (fst acc), vadd (snd acc) n) else acc in
  let l := (if b0 then [0%nat] else []) ++ (if b1 then [1%nat] else []) ++ (if b2 then [2%nat] else []) ++ (if b3 then [3%nat] else []) ++ (if b4 then [4%nat] else []) ++ (if b5 then [5%nat] else []) in
  add b3 n3 (add b2 n2 (add b5 n5 (add b4 n4 (add b1 n1 (add b0 n0 (0%nat, vzero)))))) =
  (length l, foldr vadd vzero (List.map (λ i, match i with 0%nat => n0 | 1%nat => n1 | 2%nat => n2 | 3%nat => n3 | 4%nat => n4 | _ => n5 end) l)).
Proof using. clear. destruct b0, b1, b2, b3, b4, b5; cbn; f_equal; apply v3_eq; cbn; ring. Qed.
Lemma sum_perm (f : nat → v3) l l' : l ≡ₚ l' → foldr vadd vzero (List.map f l) = foldr vadd vzero (List.map f l').
Proof using. clear. intros P. induction P; cbn; [done|by rewrite IHP|apply v3_eq; cbn; ring|by rewrite IHP1]. Qed.
Lemma listed (b0 b1 b2 b3 b4 b5 : bool) i : In i ((if b0 then [0%nat] else []) ++ (if b1 then [1%nat] else []) ++ (if b2 then [2%nat] else []) ++ (if b3 then [3%nat] else []) ++ (if b4 then [4%nat] else []) ++ (if b5 then [5%nat] else [])) ↔
  match i with 0%nat => b0 = true | 1%nat => b1 = true | 2%nat => b2 = true | 3%nat => b3 = true | 4%nat => b4 = true | 5%nat => b5 = true | _ => False end.
Proof using. clear. destruct b0, b1, b2, b3, b4, b5; cbn; destruct i as [|[|[|[|[|[|i]]]]]]; split; intros H; repeat (destruct H as [H|H]; try discriminate H); try done; auto 8. Qed.
Lemma listed_once (b0 b1 b2 b3 b4 b5 : bool) : NoDup ((if b0 then [0%nat] else []) ++ (if b1 then [1%nat] else []) ++ (if b2 then [2%nat] else []) ++ (if b3 then [3%nat] else []) ++ (if b4 then [4%nat] else []) ++ (if b5 then [5%nat] else [])).
Proof using. clear. destruct b0, b1, b2, b3, b4, b5; apply (bool_decide_unpack _); by vm_compute. Qed.
(** Normal on the surface (class kSurface): the sum of the normals of the pieces [l] nearby, over the root of their number; the answer says
    whether there are any. *)
Theorem C85_normal inf kmin p l : NoDup l → (∀ i, In i l ↔ near_piece i p) → tube_inside UniversalTube t p = kSurface →
  tube_normal inf kmin t p = (if (1 <? length l)%nat then vscale (1 / R_sqrt.sqrt (INR (length l))) (near_sum l p) else near_sum l p, negb (Nat.eqb (length l) 0)).
Proof using Hm HZ Hd.
  intros ND Hl Hi. unfold tube_normal. unfold tube_inside in Hi. destruct (tube_kernel UniversalTube t true p) as [inn out]. destruct inn; [discriminate|]. destruct out; [discriminate|]. cbn [orb]. clear Hi.
  rewrite te. rewrite sqrt_rho. change (tb_rmin (tb m M Z s d)) with m. change (tb_rmax (tb m M Z s d)) with M. change (tb_z (tb m M Z s d)) with Z. change (tb_dphi (tb m M Z s d)) with d. change (tb_wedge (tb m M Z s d)) with (mk_wedge d s).
  set (inZ := rltb (vz p) (Z + kTolerance) && rgtb (vz p) (- Z - kTolerance)). set (inR := rgeb (rho p) (m - kTolerance) && rleb (rho p) (M + kTolerance)).
  assert (IZ : inZ = true ↔ Rabs (vz p) < Z + kTolerance). { unfold inZ. rewrite andb_true_iff. destruct (rltb_spec (vz p) (Z + kTolerance)), (rgtb_spec (vz p) (- Z - kTolerance)); unfold Rabs; destruct (Rcase_abs (vz p)); split; intros; try done; try lra; destruct_and?; try done. }
  assert (IR : inR = true ↔ m - kTolerance <= rho p <= M + kTolerance). { unfold inR. rewrite andb_true_iff. destruct (rgeb_spec (rho p) (m - kTolerance)), (rleb_spec (rho p) (M + kTolerance)); split; intros; try done; try lra; destruct_and?; try done. }
  set (b0 := inR && rleb (Rabs (vz p - Z)) kTolerance). set (b1 := inR && rleb (Rabs (vz p + Z)) kTolerance). set (b4 := rgtb m 0 && inZ && rleb (Rabs (rho p - m)) kTolerance). set (b5 := inZ && rleb (Rabs (rho p - M)) kTolerance).
  set (b2 := rltb d (2 * PI) && inR && on_surface1 (mk_wedge d s) (vx p) (vy p)). set (b3 := rltb d (2 * PI) && inR && on_surface2 (mk_wedge d s) (vx p) (vy p)).
  assert (LE : ∀ x y, rleb x y = true ↔ x <= y) by (intros x y; destruct (rleb_spec x y); split; intros; try done; lra). assert (LT : ∀ x y, rltb x y = true ↔ x < y) by (intros x y; destruct (rltb_spec x y); split; intros; try done; lra). assert (GT : ∀ x y, rgtb x y = true ↔ y < x) by (intros x y; destruct (rgtb_spec x y); split; intros; try done; lra).
  assert (B : ∀ i, near_piece i p ↔ match i with 0%nat => b0 = true | 1%nat => b1 = true | 2%nat => b2 = true | 3%nat => b3 = true | 4%nat => b4 = true | 5%nat => b5 = true | _ => False end).
  { clearbody inZ inR. intros i. destruct i as [|[|[|[|[|[|i]]]]]]; cbn [near_piece]; unfold b0, b1, b2, b3, b4, b5; rewrite ?andb_true_iff, ?IZ, ?IR, ?LE, ?LT, ?GT, ?on_surface1_spec, ?on_surface2_spec; tauto. }
  clearbody b0 b1 b2 b3 b4 b5. clear LE LT GT IZ IR. cbv zeta.
  pose proof (add_all b0 b1 b2 b3 b4 b5 (piece_normal 0 p) (piece_normal 1 p) (piece_normal 2 p) (piece_normal 3 p) (piece_normal 4 p) (piece_normal 5 p)) as AA. cbv zeta in AA.
  set (l0 := (if b0 then [0%nat] else []) ++ _) in AA. assert (E2 : vneg (wedge_n1 (tb m M Z s d)) = piece_normal 2 p) by (apply v3_eq; cbn; ring). assert (E3 : vneg (wedge_n2 (tb m M Z s d)) = piece_normal 3 p) by (apply v3_eq; cbn; ring).
  assert (E4 : V3 (- vx p * (1 / rho p)) (- vy p * (1 / rho p)) 0 = piece_normal 4 p) by (apply v3_eq; cbn; unfold Rdiv; ring). assert (E5 : V3 (vx p * (1 / rho p)) (vy p * (1 / rho p)) 0 = piece_normal 5 p) by (apply v3_eq; cbn; unfold Rdiv; ring).
  rewrite E2, E3, E4, E5. change (V3 0 0 1) with (piece_normal 0 p). change (V3 0 0 (-1)) with (piece_normal 1 p). rewrite AA. cbn [fst snd].
  assert (P : l ≡ₚ l0). { apply NoDup_Permutation; [done|apply listed_once|]. intros i. rewrite !elem_of_list_In. rewrite Hl, B. unfold l0. rewrite listed. done. }
  assert (Es : foldr vadd vzero (List.map (λ i, match i with 0%nat => piece_normal 0 p | 1%nat => piece_normal 1 p | 2%nat => piece_normal 2 p | 3%nat => piece_normal 3 p | 4%nat => piece_normal 4 p | _ => piece_normal 5 p end) l0) = near_sum l p).
  { unfold near_sum. rewrite (sum_perm (λ i, piece_normal i p) _ _ P). by f_equal. }
  rewrite Es, (Permutation_length P). done.
Qed.
(** Next to one piece only: its normal. *)
Theorem C85_normal_one inf kmin p i : near_piece i p → (∀ j, near_piece j p → j = i) → tube_inside UniversalTube t p = kSurface →
  tube_normal inf kmin t p = (piece_normal i p, true) ∧ (rho p ≠ 0 → vdot (piece_normal i p) (piece_normal i p) = 1).
Proof using Hm HZ Hd.
  intros N U S. split.
  - rewrite (C85_normal inf kmin p [i]); [|repeat constructor; by intros H%elem_of_nil|intros j; split; [intros [<-|[]]; done|intros H; left; symmetry; by apply U]|done]. cbn. f_equal. apply v3_eq; cbn; ring.
  - intros R0. pose proof (r2_rho p) as E. assert (G : ∀ x, x / rho p * (x / rho p) = x * x / (rho p * rho p)) by (intros; field; done). pose proof (sin2_cos2 s) as Q1. pose proof (sin2_cos2 (s + d)) as Q2. unfold Rsqr in Q1, Q2.
    assert (W : vx p * vx p / (rho p * rho p) + vy p * vy p / (rho p * rho p) = 1). { rewrite <- Rdiv_plus_distr, E. field. done. }
    destruct i as [|[|[|[|[|i]]]]]; unfold vdot, piece_normal; cbn [vx vy vz]; try lra.
    + replace (- vx p / rho p * (- vx p / rho p)) with (vx p * vx p / (rho p * rho p)) by (field; done). replace (- vy p / rho p * (- vy p / rho p)) with (vy p * vy p / (rho p * rho p)) by (field; done). lra.
    + rewrite !G. lra.
Qed.
End Shape.
Print Assumptions C85_convex.
Print Assumptions C85_extent.
Print Assumptions C85_normal.
Print Assumptions C85_normal_one.
Example convex_half : tube_convex (tube_struct 0 3 2 0 PI) = true ∧ ¬ convex (tube_closed 1 3 2 0 PI).
Proof.
  pose proof PI_RGT_0. split.
  - rewrite tube_struct_eq by lra. unfold tube_convex. cbn. destruct (reqb_spec 0 0); [|lra]. by destruct (rleb_spec PI PI); [|lra].
  - rewrite <- C85_convex by lra. rewrite tube_struct_eq by lra. unfold tube_convex. cbn. destruct (reqb_spec 1 0); [lra|done].
Qed.
(** A quarter: from 0 to 3 in x and y. *)
Example extent_quarter : tube_extent (tube_struct 1 3 2 0 (PI / 2)) = (V3 0 0 (-2), V3 3 3 2).
Proof.
  pose proof PI_RGT_0. pose proof (C85_extent 1 3 2 0 (PI / 2) ltac:(lra) ltac:(lra) ltac:(lra)) as K. destruct (tube_extent _) as [lo hi]. destruct K as (B & (p1 & C1 & E1) & (p2 & C2 & E2) & (p3 & C3 & E3) & (p4 & C4 & E4) & (p5 & C5 & E5) & (p6 & C6 & E6)).
  assert (S : ∀ x y, sector 0 (PI / 2) x y ↔ 0 <= y ∧ 0 <= x). { intros x y. rewrite by_sides' by lra. unfold side. rewrite Rplus_0_l, cos_0, sin_0, cos_PI2, sin_PI2. split; [intros [A _]; destruct (A ltac:(lra)); lra|intros []; split; intros; lra]. }
  assert (Q : ∀ p, tube_closed 1 3 2 0 (PI / 2) p → 0 <= vx p <= 3 ∧ 0 <= vy p <= 3 ∧ -2 <= vz p <= 2). { intros p (Az & Ar & As). specialize (As ltac:(lra)). apply S in As. apply abs_le in Az. pose proof (r2_rho p). pose proof (rho_nonneg p). split; [split; [lra|nra]|]. split; [split; [lra|nra]|lra]. }
  assert (PP : ∀ x y z, 0 <= x → 0 <= y → x * x + y * y = 9 → Rabs z <= 2 → tube_closed 1 3 2 0 (PI / 2) (V3 x y z)). { intros x y z X Y E Hz. split; [done|]. rewrite (rho_at _ _ _ 3) by lra. split; [lra|]. intros _. apply S. cbn [vx vy]. done. }
  assert (A2 : Rabs 2 <= 2) by (rewrite Rabs_pos_eq; lra). assert (A3 : Rabs (-2) <= 2) by (rewrite Rabs_left; lra).
  pose proof (B _ (PP 3 0 2 ltac:(lra) ltac:(lra) ltac:(lra) A2)) as F1. pose proof (B _ (PP 0 3 (-2) ltac:(lra) ltac:(lra) ltac:(lra) A3)) as F2. cbn [vx vy vz] in F1, F2.
  pose proof (Q _ C1). pose proof (Q _ C2). pose proof (Q _ C3). pose proof (Q _ C4). pose proof (Q _ C5). pose proof (Q _ C6). f_equal; apply v3_eq; cbn [vx vy vz]; lra.
Qed.
(** On the outer wall of the pipe. *)
Example normal_pipe inf kmin : tube_normal inf kmin (tube_struct 1 3 2 0 (2 * PI)) (V3 3 0 0) = (V3 1 0 0, true).
Proof.
  pose proof PI_RGT_0. destruct small_numbers as (KT & KH & _). assert (R3 : rho (V3 3 0 0) = 3) by (apply axis_rho; lra).
  destruct (C85_normal_one 1 3 2 0 (2 * PI) ltac:(lra) ltac:(lra) ltac:(lra) inf kmin (V3 3 0 0) 5) as [E _].
  - cbn [near_piece vz]. rewrite R3, Rabs_R0. split; [lra|]. replace (3 - 3) with 0 by ring. rewrite Rabs_R0. lra.
  - intros j. destruct j as [|[|[|[|[|[|j]]]]]]; cbn [near_piece vz]; rewrite ?R3; try done; try lra.
    + replace (0 - 2) with (-2) by ring. rewrite Rabs_left by lra. lra.
    + rewrite Rplus_0_l, Rabs_pos_eq by lra. lra.
    + replace (3 - 1) with 2 by ring. rewrite (Rabs_pos_eq 2) by lra. lra.
  - rewrite tube_struct_eq by lra. destruct (tube_inside _ _ _) eqn:I; [exfalso|done|exfalso].
    + apply inside_in in I; [|lra|lra|lra|done]. destruct I as (_ & I & _). rewrite R3 in I. rewrite Rabs_pos_eq in I; nra.
    + apply inside_out in I; [|lra|lra|lra|done]. cbn [vz] in I. rewrite R3, Rabs_R0 in I. destruct I as [I|[I|[(_ & I)|(I & _)]]]; try lra. rewrite Rabs_pos_eq in I; nra.
  - rewrite E. f_equal. cbn [piece_normal]. rewrite R3. apply v3_eq; cbn; field.
Qed.
(** On the axis of half a tube both sides count, with the same normal: the answer is not a unit vector. *)
Theorem C85_normal_unit_refuted : ¬ ∀ inf kmin m M Z s d p n, 0 <= m < M → 0 < Z → 0 < d <= 2 * PI → tube_inside UniversalTube (tube_struct m M Z s d) p = kSurface →
  tube_normal inf kmin (tube_struct m M Z s d) p = (n, true) → vdot n n = 1.
Proof.
  intros H. pose proof PI_RGT_0. destruct small_numbers as (KT & KH & _). set (p := V3 0 0 0). assert (R0 : rho p = 0) by (apply axis_rho; lra).
  assert (NL : ∀ phi, near_line kTolerance phi 0 0). { intros phi. split; [unfold ahead; lra|]. exists 0, 0. split; [exists 0; split; [lra|split; ring]|]. unfold dist2. replace ((0 - 0) * (0 - 0) + (0 - 0) * (0 - 0)) with 0 by ring. rewrite sqrt_0. lra. }
  assert (I : tube_inside UniversalTube (tube_struct 0 3 2 0 PI) p = kSurface).
  { rewrite tube_struct_eq by lra. destruct (tube_inside _ _ _) eqn:I; [exfalso|done|exfalso].
    - apply inside_in in I; [|lra|lra|lra|done]. destruct I as (_ & _ & _ & I). specialize (I ltac:(lra)). destruct I as [_ I]. apply I. left. apply NL.
    - apply inside_out in I; [|lra|lra|lra|done]. rewrite R0 in I. unfold p in I. cbn [vz vx vy] in I. rewrite Rabs_R0 in I. destruct I as [I|[I|[(I & _)|(_ & _ & I)]]]; try lra. apply I. left. apply NL. }
  specialize (H 1 1 0 3 2 0 PI p (vscale (1 / R_sqrt.sqrt 2) (V3 0 (-2) 0)) ltac:(lra) ltac:(lra) ltac:(lra) I).
  assert (E : tube_normal 1 1 (tube_struct 0 3 2 0 PI) p = (vscale (1 / R_sqrt.sqrt 2) (V3 0 (-2) 0), true)).
  { rewrite (C85_normal 0 3 2 0 PI ltac:(lra) ltac:(lra) ltac:(lra) 1 1 p [2%nat; 3%nat]); [| |intros j|done].
    - cbn [length Nat.ltb Nat.leb Nat.eqb negb]. f_equal. change (INR 2) with (1 + 1). replace (1 + 1) with 2 by ring. f_equal. unfold near_sum. cbn [List.map foldr piece_normal]. rewrite Rplus_0_l, sin_0, cos_0, sin_PI, cos_PI. apply v3_eq; cbn; ring.
    - apply (bool_decide_unpack _). by vm_compute.
    - destruct j as [|[|[|[|[|[|j]]]]]]; cbn [near_piece In]; rewrite ?R0; unfold p; cbn [vx vy vz]; (split; [intros K; repeat (destruct K as [K|K]; try discriminate K); try done|]).
      + intros (_ & K). replace (0 - 2) with (-2) in K by ring. rewrite Rabs_left in K by lra. lra.
      + intros (_ & K). rewrite Rplus_0_l, Rabs_pos_eq in K by lra. lra.
      + split; [lra|]. split; [lra|apply NL].
      + auto.
      + split; [lra|]. split; [lra|apply NL].
      + auto.
      + intros (K & _). lra.
      + intros (_ & K). replace (0 - 3) with (-3) in K by ring. rewrite Rabs_left in K by lra. lra.
      + done. }
  specialize (H E). assert (S2 : R_sqrt.sqrt 2 * R_sqrt.sqrt 2 = 2) by (apply sqrt_sqrt; lra). assert (P2 : 0 < R_sqrt.sqrt 2) by (apply sqrt_lt_R0; lra). unfold vdot, vscale in H. cbn [vx vy vz] in H.
  replace (1 / R_sqrt.sqrt 2 * 0 * (1 / R_sqrt.sqrt 2 * 0) + 1 / R_sqrt.sqrt 2 * -2 * (1 / R_sqrt.sqrt 2 * -2) + 1 / R_sqrt.sqrt 2 * 0 * (1 / R_sqrt.sqrt 2 * 0)) with (4 / (R_sqrt.sqrt 2 * R_sqrt.sqrt 2)) in H by (field; lra). rewrite S2 in H. lra.
Qed.
Print Assumptions C85_normal_unit_refuted.
