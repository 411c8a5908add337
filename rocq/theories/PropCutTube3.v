(** C90: the extent of cut tubes, the choice of samples and the way in through the planes. *)
From Coq Require Import Reals Lra Lia Bool ZArith Psatz.
From stdpp Require Import base list option numbers tactics.
From Verif Require Import Real3 AABBModel BoxModel PlanesModel PlanesProofs TetModel WedgeModel WedgeSpec WedgeProofs WedgeProofs2 TrdModel PropTrd3 PolyconeSpec ConeSpec ConeProofs TubeModel TubeSpec TubeProofs PropTube PropTube2 PropTube3 PropTube4 PropTube5 CutTubeModel CutTubeModel2 CutTubeSpec PropCutTube PropCutTube2.
Import stdpp.list.
Local Open Scope R_scope.

Section Extent.
Variables inf m M Z s d : R.
Variables b t : v3.
Hypothesis Hm : 0 <= m < M.
Hypothesis Hd : 0 < d <= 2 * PI.
Hypothesis Ub : vdot b b = 1.
Hypothesis Ut : vdot t t = 1.
Hypothesis Hb : vz b < 0.
Hypothesis Ht : 0 < vz t.
Let c := cut_tube inf m M Z s d b t.
(** The part of the ring within the sector. *)
Definition ring (x y : R) : Prop := m <= rho (V3 x y 0) <= M ∧ (d < 2 * PI → sector s d x y).
(** The largest coordinate of the ring in the direction [a], the direction tested with the length [k]. *)
Definition farthest (k a : R) : R :=
  if reqb d (2 * PI) then M else if wedge_contains (mk_wedge d s) (k * cos a) (k * sin a) then M
  else Rmax (Rmax (M * cos (s - a)) (M * cos (s + d - a))) (Rmax (m * cos (s - a)) (m * cos (s + d - a))).
Lemma ahead_polar a r phi : ahead a (r * cos phi) (r * sin phi) = r * cos (phi - a).
Proof using. unfold ahead. rewrite cos_minus. ring. Qed.
Lemma ring_polar x y : ring x y → ∃ r phi, m <= r <= M ∧ (d < 2 * PI → s <= phi <= s + d) ∧ x = r * cos phi ∧ y = r * sin phi.
Proof using Hm.
  intros [R0 S0]. destruct (Rlt_le_dec d (2 * PI)) as [P|P].
  - destruct (S0 P) as (phi & PH & r & R1 & Ex & Ey). exists r, phi. rewrite Ex, Ey, rho_polar in R0 by done. done.
  - destruct (polar s x y) as (r & u & R1 & _ & Ex & Ey). exists r, (s + u). rewrite Ex, Ey, rho_polar in R0 by done. split; [done|]. split; [intros; lra|done].
Qed.
Lemma polar_ring r phi : m <= r <= M → (d < 2 * PI → s <= phi <= s + d) → ring (r * cos phi) (r * sin phi).
Proof using Hm. intros R0 PH. split; [rewrite rho_polar by lra; lra|]. intros P. exists phi. split; [by apply PH|]. exists r. split; [lra|done]. Qed.
Lemma farthest_spec k a : 0 < k → (∀ x y, ring x y → ahead a x y <= farthest k a) ∧ ∃ x y, ring x y ∧ ahead a x y = farthest k a.
Proof using Hm Hd.
  intros K. unfold farthest.
  assert (FM : ∀ x y, ring x y → ahead a x y <= M). { intros x y Rg. destruct (ring_polar x y Rg) as (r & phi & R1 & _ & -> & ->). rewrite ahead_polar. pose proof (COS_bound (phi - a)). nra. }
  destruct (reqb_spec d (2 * PI)) as [P|P].
  - split; [done|]. exists (M * cos a), (M * sin a). split; [apply polar_ring; intros; lra|]. rewrite ahead_polar, Rminus_eq_0, cos_0. ring.
  - assert (P' : d < 2 * PI) by lra. destruct (wedge_contains (mk_wedge d s) _ _) eqn:W.
    + apply wedge_contains_sector in W; [|done]. destruct W as (phi & PH & r & R0 & Ex & Ey). assert (RR : r = k). { assert (E1 : rho (V3 (k * cos a) (k * sin a) 0) = k) by (apply rho_polar; lra). rewrite Ex, Ey in E1. rewrite rho_polar in E1; done. }
      assert (CC : cos (phi - a) = 1). { rewrite RR in Ex, Ey. apply Rmult_eq_reg_l in Ex; [|lra]. apply Rmult_eq_reg_l in Ey; [|lra]. rewrite cos_minus, <- Ex, <- Ey. pose proof (sin2_cos2 a) as E. unfold Rsqr in E. lra. }
      split; [done|]. exists (M * cos phi), (M * sin phi). split; [apply polar_ring; [lra|done]|]. rewrite ahead_polar, CC. ring.
    + assert (N : ∀ j : BinNums.Z, ¬ s <= a + 2 * IZR j * PI <= s + d).
      { intros j J. apply not_true_iff_false in W. apply W. apply wedge_contains_sector; [done|]. exists (a + 2 * IZR j * PI). split; [done|]. exists k. destruct (cos_turns a j) as [-> ->]. split; [lra|done]. }
      rewrite !cos_scale by lra. set (g := Rmax (cos (s - a)) (cos (s + d - a))). assert (CE : g = cos (s - a) ∨ g = cos (s + d - a)) by (unfold g, Rmax; destruct (Rle_dec _ _); auto). split.
      * intros x y Rg. destruct (ring_polar x y Rg) as (r & phi & R1 & PH & -> & ->). rewrite ahead_polar. assert (U : cos (phi - a) <= g) by (apply cos_ends; [by apply PH|done]). pose proof (Rmax_l (M * g) (m * g)) as X1. pose proof (Rmax_r (M * g) (m * g)) as X2. set (X := Rmax (M * g) (m * g)) in *. clearbody X g. set (w := cos (phi - a)) in *. clearbody w. apply Rle_trans with (r * g); [apply Rmult_le_compat_l; lra|]. destruct (Rle_dec 0 g); nra.
      * assert (AT : ∀ r, m <= r <= M → ∃ x y, ring x y ∧ ahead a x y = r * g). { intros r R0. destruct CE as [E|E]; rewrite E; [exists (r * cos s), (r * sin s)|exists (r * cos (s + d)), (r * sin (s + d))]; (split; [apply polar_ring; intros; lra|apply ahead_polar]). }
        destruct (Rle_dec (m * g) (M * g)) as [L|L]; [rewrite Rmax_left by done|rewrite Rmax_right by lra]; apply AT; lra.
Qed.
(** The slope of a plane: its direction and its steepness. *)
Lemma slope n : vdot n n = 1 → ∃ a, let g := R_sqrt.sqrt (1 - vz n * vz n) in 0 <= g ∧ - vx n = g * cos a ∧ - vy n = g * sin a.
Proof using.
  intros U. destruct (polar 0 (- vx n) (- vy n)) as (r & u & R0 & _ & Ex & Ey). rewrite Rplus_0_l in *. exists u. assert (E : R_sqrt.sqrt (1 - vz n * vz n) = r); [|cbv zeta; by rewrite E]. unfold vdot in U. pose proof (sin2_cos2 u) as SC. unfold Rsqr in SC.
  replace (1 - vz n * vz n) with (r * r); [by apply sqrt_square|]. assert (X : vx n * vx n = r * cos u * (r * cos u)) by (rewrite <- Ex; ring). assert (Y : vy n * vy n = r * sin u * (r * sin u)) by (rewrite <- Ey; ring). replace (r * r) with (r * r * (sin u * sin u + cos u * cos u)) by (rewrite SC; ring). lra.
Qed.
Lemma max_mul k x y : 0 <= k → Rmax (k * x) (k * y) = k * Rmax x y.
Proof using. exact (cos_scale k x y). Qed.
Lemma max_add k x y : Rmax (k + x) (k + y) = k + Rmax x y.
Proof using. unfold Rmax. repeat destruct (Rle_dec _ _); lra. Qed.
Lemma min_max x y : Rmin x y = - Rmax (- x) (- y).
Proof using. unfold Rmin, Rmax. repeat destruct (Rle_dec _ _); lra. Qed.
(** The answers, in terms of the farthest points. *)
Lemma extent_eq : ∃ at_ ab kt kb, 0 < kt ∧ 0 < kb ∧ let gt := R_sqrt.sqrt (1 - vz t * vz t) in let gb := R_sqrt.sqrt (1 - vz b * vz b) in
  0 <= gt ∧ 0 <= gb ∧ - vx t = gt * cos at_ ∧ - vy t = gt * sin at_ ∧ - vx b = gb * cos ab ∧ - vy b = gb * sin ab ∧
  ct_extent c = (V3 (- farthest 1 PI) (- farthest 1 (3 * (PI / 2))) (- Z + gb / vz b * farthest kb ab), V3 (farthest 1 0) (farthest 1 (PI / 2)) (Z + gt / vz t * farthest kt at_)).
Proof using Hm Hd Ub Ut Hb Ht.
  destruct (slope t Ut) as (at_ & G1 & X1 & Y1). destruct (slope b Ub) as (ab & G2 & X2 & Y2). set (gt := R_sqrt.sqrt (1 - vz t * vz t)) in *. set (gb := R_sqrt.sqrt (1 - vz b * vz b)) in *.
  exists at_, ab, (if reqb gt 0 then 1 else gt), (if reqb gb 0 then 1 else gb). split; [destruct (reqb_spec gt 0); lra|]. split; [destruct (reqb_spec gb 0); lra|]. cbv zeta. do 6 (split; [done|]).
  unfold ct_extent. cbv zeta. pose proof (c_parts inf m M Z s d b t Hm) as CP. fold c in CP. rewrite !CP. clear CP. cbn [tb tb_rmin tb_rmax tb_dphi tb_sphi tb_wedge]. change (pl_n (ct_upper c)) with t. change (pl_n (ct_lower c)) with b. fold gt gb. change (ct_dz c) with Z. change (ct_cos1 c) with (cos s). change (ct_cos2 c) with (cos (s + d)). change (ct_sin1 c) with (sin s). change (ct_sin2 c) with (sin (s + d)).
  unfold farthest. destruct (reqb_spec d (2 * PI)) as [P|P]; [f_equal; apply v3_eq; cbn [vx vy vz]; try done; field; lra|].
  assert (C3 : cos (3 * (PI / 2)) = 0 ∧ sin (3 * (PI / 2)) = -1). { replace (3 * (PI / 2)) with (PI / 2 + PI) by field. rewrite cos_3PI2, sin_3PI2. done. } destruct C3 as [C3 S3].
  assert (A1 : ∀ x, cos (x - 0) = cos x) by (intros; f_equal; ring). assert (A2 : ∀ x, cos (x - PI / 2) = sin x) by (intros; rewrite cos_minus, cos_PI2, sin_PI2; ring). assert (A3 : ∀ x, cos (x - PI) = - cos x) by (intros; rewrite cos_minus, cos_PI, sin_PI; ring). assert (A4 : ∀ x, cos (x - 3 * (PI / 2)) = - sin x) by (intros; rewrite cos_minus, C3, S3; ring).
  rewrite !A1, !A2, !A3, !A4, cos_0, sin_0, cos_PI2, sin_PI2, cos_PI, sin_PI, C3, S3. rewrite !Rmult_1_l. cbn [vx vy vz].
  assert (ZT : ∀ r phi, z_top c r phi = Z + gt / vz t * (r * cos (phi - at_))). { intros r phi. unfold c; rewrite (proj1 (C90_limits inf m M Z s d b t Hb Ht r phi)). unfold above, roof. rewrite cos_minus. assert (E1 : vx t = - (gt * cos at_)) by lra. assert (E2 : vy t = - (gt * sin at_)) by lra. rewrite E1, E2. field. lra. }
  assert (ZB : ∀ r phi, z_bottom c r phi = - (Z + gb / - vz b * (r * cos (phi - ab)))). { intros r phi. unfold c; rewrite (proj2 (C90_limits inf m M Z s d b t Hb Ht r phi)). unfold below, roof. rewrite cos_minus. assert (E1 : vx b = - (gb * cos ab)) by lra. assert (E2 : vy b = - (gb * sin ab)) by lra. rewrite E1, E2. field. lra. }
  rewrite !ZT, !ZB. assert (Q1 : 0 <= gt / vz t) by (apply Rmult_le_pos; [done|left; apply Rinv_0_lt_compat; lra]). assert (Q2 : 0 <= gb / - vz b) by (apply Rmult_le_pos; [done|left; apply Rinv_0_lt_compat; lra]).
  assert (MT : ∀ q u v w z, 0 <= q → Rmax (Rmax (Z + q * u) (Z + q * v)) (Rmax (Z + q * w) (Z + q * z)) = Z + q * Rmax (Rmax u v) (Rmax w z)) by (intros; rewrite !max_add, !max_mul by done; done).
  rewrite !min_max, !Ropp_involutive, !MT by done. clear MT. rewrite !Ropp_mult_distr_r_reverse.
  assert (WT : ∀ g n a, 0 <= g → - vx n = g * cos a → - vy n = g * sin a → (g = 0 → wedge_contains (mk_wedge d s) (- vx n) (- vy n) = true) ∧ (g ≠ 0 → wedge_contains (mk_wedge d s) (- vx n) (- vy n) = wedge_contains (mk_wedge d s) (g * cos a) (g * sin a))).
  { intros g n a G E1 E2. split; [|intros _; by rewrite E1, E2]. intros G0. apply wedge_contains_sector; [done|]. rewrite E1, E2, G0. exists s. split; [lra|]. exists 0. split; [lra|]. split; ring. }
  destruct (WT gt t at_ G1 X1 Y1) as [W1 W2]. destruct (WT gb b ab G2 X2 Y2) as [W3 W4]. clear WT.
  f_equal; apply v3_eq; cbn [vx vy vz].
  - destruct (wedge_contains (mk_wedge d s) (-1) 0); done.
  - destruct (wedge_contains (mk_wedge d s) 0 (-1)); done.
  - destruct (reqb_spec gb 0) as [G0|G0]; [rewrite (W3 G0); cbn [negb]; rewrite G0; unfold Rdiv; ring|]. rewrite (W4 G0). destruct (wedge_contains (mk_wedge d s) (gb * cos ab) (gb * sin ab)); cbn [negb]; [|set (X := Rmax _ _)]; field; lra.
  - destruct (wedge_contains (mk_wedge d s) 1 0); done.
  - destruct (wedge_contains (mk_wedge d s) 0 1); done.
  - destruct (reqb_spec gt 0) as [G0|G0]; [rewrite (W1 G0); cbn [negb]; rewrite G0; unfold Rdiv; ring|]. rewrite (W2 G0). destruct (wedge_contains (mk_wedge d s) (gt * cos at_) (gt * sin at_)); cbn [negb]; [|set (X := Rmax _ _)]; field; lra.
Qed.
(** Extent: a box around the cut tube, and the smallest one when the planes do not cross within the tube. *)
Theorem C90_extent : let '(lo, hi) := ct_extent c in
  (∀ p, cut_closed m M Z s d b t p → vx lo <= vx p <= vx hi ∧ vy lo <= vy p <= vy hi ∧ vz lo <= vz p <= vz hi) ∧
  ((∀ x y, R_sqrt.sqrt (x * x + y * y) <= M → roof b (- Z) x y <= roof t Z x y) →
   (∃ p, cut_closed m M Z s d b t p ∧ vx p = vx lo) ∧ (∃ p, cut_closed m M Z s d b t p ∧ vx p = vx hi) ∧ (∃ p, cut_closed m M Z s d b t p ∧ vy p = vy lo) ∧
   (∃ p, cut_closed m M Z s d b t p ∧ vy p = vy hi) ∧ (∃ p, cut_closed m M Z s d b t p ∧ vz p = vz lo) ∧ (∃ p, cut_closed m M Z s d b t p ∧ vz p = vz hi)).
Proof using Hm Hd Ub Ut Hb Ht.
  destruct extent_eq as (a1 & a2 & k1 & k2 & K1 & K2 & G1 & G2 & X1 & Y1 & X2 & Y2 & ->). cbn [vx vy vz]. set (gt := R_sqrt.sqrt (1 - vz t * vz t)) in *. set (gb := R_sqrt.sqrt (1 - vz b * vz b)) in *.
  assert (C3 : cos (3 * (PI / 2)) = 0 ∧ sin (3 * (PI / 2)) = -1). { replace (3 * (PI / 2)) with (PI / 2 + PI) by field. rewrite cos_3PI2, sin_3PI2. done. } destruct C3 as [C3 S3].
  assert (A1 : ∀ x y, ahead 0 x y = x) by (intros; unfold ahead; rewrite cos_0, sin_0; ring). assert (A2 : ∀ x y, ahead (PI / 2) x y = y) by (intros; unfold ahead; rewrite cos_PI2, sin_PI2; ring).
  assert (A3 : ∀ x y, ahead PI x y = - x) by (intros; unfold ahead; rewrite cos_PI, sin_PI; ring). assert (A4 : ∀ x y, ahead (3 * (PI / 2)) x y = - y) by (intros; unfold ahead; rewrite C3, S3; ring).
  destruct (farthest_spec 1 0 ltac:(lra)) as [U1 (x1 & y1 & V1 & W1)]. destruct (farthest_spec 1 (PI / 2) ltac:(lra)) as [U2 (x2 & y2 & V2 & W2)]. destruct (farthest_spec 1 PI ltac:(lra)) as [U3 (x3 & y3 & V3' & W3)]. destruct (farthest_spec 1 (3 * (PI / 2)) ltac:(lra)) as [U4 (x4 & y4 & V4 & W4)]. destruct (farthest_spec k1 a1 K1) as [U5 (x5 & y5 & V5 & W5)]. destruct (farthest_spec k2 a2 K2) as [U6 (x6 & y6 & V6 & W6)].
  rewrite A1 in W1. rewrite A2 in W2. rewrite A3 in W3. rewrite A4 in W4. set (f1 := farthest 1 0) in *. set (f2 := farthest 1 (PI / 2)) in *. set (f3 := farthest 1 PI) in *. set (f4 := farthest 1 (3 * (PI / 2))) in *. set (f5 := farthest k1 a1) in *. set (f6 := farthest k2 a2) in *. clearbody f1 f2 f3 f4 f5 f6.
  assert (Q1 : 0 <= gt / vz t) by (apply Rmult_le_pos; [done|left; apply Rinv_0_lt_compat; lra]). assert (Q2 : gb / vz b <= 0). { assert (0 <= gb / - vz b) by (apply Rmult_le_pos; [done|left; apply Rinv_0_lt_compat; lra]). replace (gb / vz b) with (- (gb / - vz b)) by (field; lra). lra. }
  assert (RT : ∀ x y, roof t Z x y = Z + gt / vz t * ahead a1 x y). { intros x y. unfold roof, ahead. assert (E1 : vx t = - (gt * cos a1)) by lra. assert (E2 : vy t = - (gt * sin a1)) by lra. rewrite E1, E2. field. lra. }
  assert (RB : ∀ x y, roof b (- Z) x y = - Z + gb / vz b * ahead a2 x y). { intros x y. unfold roof, ahead. assert (E1 : vx b = - (gb * cos a2)) by lra. assert (E2 : vy b = - (gb * sin a2)) by lra. rewrite E1, E2. field. lra. }
  split.
  - intros p ((C1 & C2) & C4). assert (Rg : ring (vx p) (vy p)) by exact C4. specialize (U1 _ _ Rg). specialize (U2 _ _ Rg). specialize (U3 _ _ Rg). specialize (U4 _ _ Rg). specialize (U5 _ _ Rg). specialize (U6 _ _ Rg). rewrite A1 in U1. rewrite A2 in U2. rewrite A3 in U3. rewrite A4 in U4. rewrite RT in C2. rewrite RB in C1. split; [lra|]. split; [lra|].
    assert (gt / vz t * ahead a1 (vx p) (vy p) <= gt / vz t * f5) by (by apply Rmult_le_compat_l). assert (gb / vz b * f6 <= gb / vz b * ahead a2 (vx p) (vy p)) by nra. lra.
  - intros Ap. assert (PT : ∀ x y, ring x y → cut_closed m M Z s d b t (V3 x y (roof t Z x y)) ∧ cut_closed m M Z s d b t (V3 x y (roof b (- Z) x y))). { intros x y Rg. assert (L : roof b (- Z) x y <= roof t Z x y) by (apply Ap; destruct Rg as [[_ Rg] _]; exact Rg). unfold cut_closed. cbn [vx vy vz]. change (rho (V3 x y (roof t Z x y))) with (rho (V3 x y 0)). change (rho (V3 x y (roof b (- Z) x y))) with (rho (V3 x y 0)). split; (split; [lra|exact Rg]). }
    split; [exists (V3 x3 y3 (roof t Z x3 y3)); split; [by apply PT|cbn; lra]|]. split; [exists (V3 x1 y1 (roof t Z x1 y1)); split; [by apply PT|cbn; lra]|]. split; [exists (V3 x4 y4 (roof t Z x4 y4)); split; [by apply PT|cbn; lra]|]. split; [exists (V3 x2 y2 (roof t Z x2 y2)); split; [by apply PT|cbn; lra]|].
    split; [exists (V3 x6 y6 (roof b (- Z) x6 y6)); split; [by apply PT|cbn [vz]; by rewrite RB, W6]|exists (V3 x5 y5 (roof t Z x5 y5)); split; [by apply PT|cbn [vz]; by rewrite RT, W5]].
Qed.
(** The planes do not cross within the tube. *)
Hypothesis Apart : ∀ x y, R_sqrt.sqrt (x * x + y * y) <= M → roof b (- Z) x y < roof t Z x y.
(** The areas of the pieces, in the order of [cut_piece], and their sums. *)
Definition cut_share (i : nat) : R :=
  match i with
  | 0%nat => ct_bottom c | 1%nat => ct_top c | 2%nat => ct_lateral c M | 3%nat => ct_lateral c m | 4%nat => ct_phi c s | 5%nat => ct_phi c (s + d) | _ => 0
  end.
Definition shares_upto (i : nat) : R := foldr Rplus 0 (List.map cut_share (seq 0 i)).
Lemma areas_eq : ct_areas c = List.map cut_share (seq 0 6).
Proof using Hm. unfold ct_areas. pose proof (c_parts inf m M Z s d b t Hm) as CP. fold c in CP. rewrite !CP. reflexivity. Qed.
Lemma tall_pos r phi : 0 <= r <= M → 0 < tall Z b t r phi.
Proof using Apart. intros Hr. unfold tall, above, below. pose proof (rho_polar r phi 0 ltac:(lra)) as RP. unfold rho in RP. cbn [vx vy] in RP. specialize (Apart (r * cos phi) (r * sin phi)). rewrite RP in Apart. specialize (Apart ltac:(lra)). lra. Qed.
Lemma share_pos i : 0 <= cut_share i.
Proof using Hm Hd Ub Ut Hb Ht Apart.
  assert (LA : ∀ r, 0 <= r <= M → 0 <= ct_lateral c r). { intros r Hr. destruct (C90_lateral inf m M Z s d b t Hm Hb Ht r) as (H & DH & E). fold c in E. rewrite E. destruct (MVT_cor2 H (λ phi, tall Z b t r phi * r) s (s + d) ltac:(lra) (λ x _, DH x)) as (x & -> & _). pose proof (tall_pos r x Hr). apply Rmult_le_pos; [apply Rmult_le_pos; lra|lra]. }
  assert (SI : ∀ phi, 0 <= ct_phi c phi). { intros phi. destruct (C90_sides inf m M Z s d b t Hm Hb Ht phi) as [E1 E2]. fold c in E1, E2. destruct (Rlt_le_dec d (2 * PI)) as [P|P]; [|rewrite E1; lra]. destruct (E2 P) as (F & DF & ->). destruct (MVT_cor2 F (λ r, tall Z b t r phi) m M ltac:(lra) (λ x _, DF x)) as (x & -> & X). pose proof (tall_pos x phi ltac:(lra)). apply Rmult_le_pos; lra. }
  assert (LI : 0 <= ct_top c ∧ 0 <= ct_bottom c). { destruct (C90_lids inf m M Z s d b t Hm Ub Ut Hb Ht) as (F & DF & E1 & E2). fold c in E1, E2. rewrite E1, E2. destruct (MVT_cor2 F (λ r, r * d) m M ltac:(lra) (λ x _, DF x)) as (x & -> & X). assert (0 <= x * d * (M - m)) by (apply Rmult_le_pos; [apply Rmult_le_pos; lra|lra]). split; (apply Rmult_le_pos; [apply sqrt_pos|done]). }
  do 6 (destruct i as [|i]; [cbn [cut_share]; first [apply LI|apply LA; lra|apply SI]|]). cbn. lra.
Qed.
(** SamplePointOnSurface: the first number chooses the pieces in the shares of their areas, the others cover the piece. *)
Theorem C90_choose r : 0 <= r <= 1 → ∃ i, (i < 6)%nat ∧ (shares_upto i < r * ct_area c ∨ i = 0%nat) ∧ r * ct_area c <= shares_upto (Datatypes.S i) ∧
  ∀ p, (∃ u v w, 0 <= u <= 1 ∧ 0 <= v <= 1 ∧ 0 <= w <= 1 ∧ ct_sample c r u v w = Some p) ↔ cut_piece m M Z s d b t i p.
Proof using Hm Hd Ub Ut Hb Ht Apart.
  intros Hr. assert (F : Forall (Rle 0) (ct_areas c)). { rewrite areas_eq. apply Forall_forall. intros x Hx. apply elem_of_list_In, in_map_iff in Hx as (i & <- & _). apply share_pos. }
  assert (Tot : foldr Rplus 0 (ct_areas c) = shares_upto 6) by (by rewrite areas_eq).
  assert (Ar : ct_area c = shares_upto 6). { pose proof (C90_area inf m M Z s d b t Hm) as E. fold c in E. rewrite E. unfold shares_upto. cbn [seq List.map foldr cut_share]. ring. } rewrite Ar.
  assert (Up : ∀ i, (i <= 6)%nat → take i (ct_areas c) = List.map cut_share (seq 0 i)). { intros i Hi. rewrite areas_eq. do 7 (destruct i as [|i]; [reflexivity|]). lia. }
  destruct (pick_some (r * shares_upto 6) (ct_areas c) F) as (i & E & L & A & D).
  - rewrite Tot. assert (0 <= shares_upto 6) by (rewrite <- Tot; clear - F; induction F; cbn; lra). nra.
  - by rewrite areas_eq.
  - assert (L6 : (i < 6)%nat) by (rewrite areas_eq, map_length, seq_length in L; exact L). exists i. split; [done|]. unfold shares_upto at 1 4. rewrite <- !Up by lia. split; [done|]. split; [done|]. intros p. apply (C90_sample inf m M Z s d b t Hm Hd Hb Ht Apart r p i); [|done]. fold c. rewrite foldl_sum, Rplus_0_l, Tot. exact E.
Qed.
(** Between the planes. *)
Definition between (p : v3) : Prop := over b (- Z) p <= 0 ∧ over t Z p <= 0.
(** A direction away from or along the plane, or clearly towards it. *)
Definition heading (n dir : v3) : Prop := 0 <= vdot n dir ∨ vdot n dir <= - kAbsorb.
Lemma over_along n h p dir u : over n h (along p dir u) = over n h p + u * vdot n dir.
Proof using. unfold over, along, vadd, vscale, vsub, vdot. cbn [vx vy vz]. ring. Qed.
Lemma one_in n h p dir : 0 < inf → heading n dir → let pl := Plane n (- h * vz n) in let D := if rgtb (vdot dir (pl_n pl)) 0 then - inf else plane_to_in inf pl p dir in
  (0 < over n h p → vdot n dir < 0 → 0 <= D ∧ over n h p + D * vdot n dir = 0) ∧ (over n h p <= 0 → D <= 0).
Proof using.
  intros HI Hh pl. assert (EO : over n h p = pl_dist pl p) by (unfold over, pl, pl_dist, vdot; cbn; ring). assert (EP : vdot n dir = pl_proj pl dir) by (unfold pl_proj, pl; cbn; apply vdot_comm). unfold heading in Hh. change (pl_n pl) with n. rewrite (vdot_comm dir n). rewrite EO, EP in *. pose proof kAbsorb_pos. cbv zeta. unfold plane_to_in. cbv zeta. split.
  - intros P N. destruct (rgtb_spec (pl_proj pl dir) 0); [lra|]. rewrite nz_large by (rewrite Rabs_left; lra). destruct (rltb_spec (pl_proj pl dir) 0); [|lra]. pose proof kTolerance_pos. destruct (rgtb_spec (pl_dist pl p) (- kTolerance)); [|lra]. cbn [andb]. split; [|field; lra].
    replace (- pl_dist pl p / pl_proj pl dir) with (pl_dist pl p / - pl_proj pl dir) by (field; lra). left. apply Rdiv_lt_0_compat; lra.
  - intros P. destruct (rgtb_spec (pl_proj pl dir) 0); [lra|]. destruct Hh as [Hh|Hh].
    + pose proof (nz_pos _ Hh). destruct (rltb_spec (nz (pl_proj pl dir)) 0); [lra|]. cbn [andb]. lra.
    + rewrite nz_large by (rewrite Rabs_left; lra). destruct (_ && _); [|lra]. replace (- pl_dist pl p / pl_proj pl dir) with (- (- pl_dist pl p * / - pl_proj pl dir)) by (field; lra). assert (0 <= - pl_dist pl p * / - pl_proj pl dir) by (apply Rmult_le_pos; [lra|left; apply Rinv_0_lt_compat; lra]). lra.
Qed.
(** CutPlanes::DistanceToIn from outside: a ray that gets between the planes does so first at the answer. *)
Theorem C90_planes_in p dir : 0 < inf → heading b dir → heading t dir → ¬ between p →
  let D := cut_to_in inf (ct_lower c) (ct_upper c) p dir in ∀ u, 0 <= u → between (along p dir u) → 0 <= D <= u ∧ between (along p dir D) ∧ (over b (- Z) (along p dir D) = 0 ∨ over t Z (along p dir D) = 0).
Proof using.
  intros HI H1 H2 NB D u U. unfold between in *. rewrite !over_along. intros [B1 B2]. destruct (one_in b (- Z) p dir HI H1) as [P1 P2]. destruct (one_in t Z p dir HI H2) as [Q1 Q2]. unfold D, cut_to_in. cbv zeta. assert (EL : ct_lower c = Plane b (- - Z * vz b)) by (unfold c, cut_tube; cbn; f_equal; ring). rewrite EL. change (ct_upper c) with (Plane t (- Z * vz t)).
  set (D0 := if rgtb (vdot dir (pl_n (Plane b (- - Z * vz b)))) 0 then _ else _) in *. set (D1 := if rgtb (vdot dir (pl_n (Plane t (- Z * vz t)))) 0 then _ else _) in *. clearbody D0 D1. clear D H1 H2. set (x := over b (- Z) p) in *. set (y := over t Z p) in *. set (v := vdot b dir) in *. set (w := vdot t dir) in *. clearbody x y v w. pose proof (Rmax_l D0 D1) as M1. pose proof (Rmax_r D0 D1) as M2.
  assert (ME : Rmax D0 D1 = D0 ∨ Rmax D0 D1 = D1) by (unfold Rmax; destruct (Rle_dec _ _); auto). set (D := Rmax D0 D1) in *. clearbody D.
  assert (E1 : 0 < x → v < 0 ∧ 0 <= D0 <= u ∧ x + D * v <= 0 ∧ (D = D0 → x + D * v = 0)). { intros X. assert (V : v < 0) by nra. destruct (P1 X V) as [A1 A2]. split; [done|]. split; [|split; [nra|by intros ->]]. split; [done|]. destruct (Rle_dec D0 u); [done|]. nra. }
  assert (E2 : 0 < y → w < 0 ∧ 0 <= D1 <= u ∧ y + D * w <= 0 ∧ (D = D1 → y + D * w = 0)). { intros Y. assert (V : w < 0) by nra. destruct (Q1 Y V) as [A1 A2]. split; [done|]. split; [|split; [nra|by intros ->]]. split; [done|]. destruct (Rle_dec D1 u); [done|]. nra. }
  assert (L : ∀ x v, x <= 0 → x + u * v <= 0 → 0 <= D <= u → x + D * v <= 0). { clear - U. intros x v X E DD. destruct (Rle_dec v 0); nra. }
  destruct (Rlt_le_dec 0 x) as [X|X]; destruct (Rlt_le_dec 0 y) as [Y|Y].
  - destruct (E1 X) as (_ & ? & ? & F1). destruct (E2 Y) as (_ & ? & ? & F2). split; [destruct ME; lra|]. split; [done|]. destruct ME as [ME|ME]; [left; by apply F1|right; by apply F2].
  - destruct (E1 X) as (_ & ? & ? & F1). specialize (Q2 Y). assert (DD : 0 <= D <= u) by (destruct ME; lra). split; [done|]. split; [split; [done|by apply L]|]. left. apply F1. destruct ME; lra.
  - destruct (E2 Y) as (_ & ? & ? & F2). specialize (P2 X). assert (DD : 0 <= D <= u) by (destruct ME; lra). split; [done|]. split; [split; [by apply L|done]|]. right. apply F2. destruct ME; lra.
  - exfalso. apply NB. done.
Qed.
(** DistanceToIn: minus one from inside. *)
Theorem C90_to_in_inside p dir : ct_inside c p = kInside → ct_to_in_kernel inf c p dir = -1.
Proof using. intros E. unfold ct_to_in_kernel. cbv zeta. rewrite E. destruct (_ && _); [done|]. by rewrite orb_true_r. Qed.
(** DistanceToIn from beyond the planes, for a ray that gets between them within the tube: the distance at which it does, zero when tiny. *)
Theorem C90_to_in_lid p dir u : 0 < inf → u < inf → heading b dir → heading t dir → ¬ between p → 0 <= u → between (along p dir u) →
  let D := cut_to_in inf (ct_lower c) (ct_upper c) p dir in tube_inside UniversalTube (ct_tube c) (along p dir D) ≠ kOutside →
  ct_to_in_kernel inf c p dir = if rltb D kTolerance then 0 else D.
Proof using.
  intros HI UI H1 H2 NB U B D NT. destruct (C90_planes_in p dir HI H1 H2 NB u U B) as (DU & _ & ON). fold D in DU, ON. pose proof kTolerance_pos.
  assert (NO : cut_inside (ct_lower c) (ct_upper c) (along p dir D) = kSurface). { unfold cut_inside. cbv zeta. pose proof (dist_lower inf m M Z s d b t (along p dir D)) as E1. pose proof (dist_upper inf m M Z s d b t (along p dir D)) as E2. fold c in E1, E2. rewrite E1, E2. destruct ON as [ON|ON]; rewrite ON, Rabs_R0; destruct (rltb_spec 0 kTolerance); try lra; [done|by rewrite orb_true_r]. }
  assert (EB : over b (- Z) p = pl_dist (ct_lower c) p) by (symmetry; apply dist_lower). assert (ET : over t Z p = pl_dist (ct_upper c) p) by (symmetry; apply dist_upper). assert (OUT : 0 < pl_dist (ct_lower c) p ∨ 0 < pl_dist (ct_upper c) p). { unfold between in NB. rewrite EB, ET in NB. destruct (Rlt_le_dec 0 (pl_dist (ct_lower c) p)); [by left|]. destruct (Rlt_le_dec 0 (pl_dist (ct_upper c) p)); [by right|]. exfalso. by apply NB. }
  unfold ct_to_in_kernel. cbv zeta. fold D. rewrite (Rabs_pos_eq D) by lra. destruct (rltb_spec D inf); [|lra].
  assert (SF : rgtb (cut_safety_in (ct_lower c) (ct_upper c) p) (- kTolerance) = true). { destruct (rgtb_spec (cut_safety_in (ct_lower c) (ct_upper c) p) (- kTolerance)) as [|G]; [done|]. exfalso. apply G. unfold cut_safety_in. pose proof (Rmax_l (plane_safety_in (ct_lower c) p) (plane_safety_in (ct_upper c) p)). pose proof (Rmax_r (plane_safety_in (ct_lower c) p) (plane_safety_in (ct_upper c) p)). unfold plane_safety_in in *. destruct OUT; lra. }
  rewrite SF. cbn [andb negb]. rewrite andb_false_r.
  assert (NI : ct_inside c p ≠ kInside). { unfold ct_inside, cut_inside. cbv zeta. destruct (_ || _); [destruct (tube_inside UniversalTube (ct_tube c) p); done|]. destruct (rltb_spec (pl_dist (ct_lower c) p) 0); destruct (rltb_spec (pl_dist (ct_upper c) p) 0); cbn [andb]; try done. destruct OUT; lra. }
  destruct (cut_inside (ct_lower c) (ct_upper c) (along p dir D)) eqn:EC; destruct (ct_inside c p) eqn:EI; destruct (tube_inside UniversalTube (ct_tube c) (along p dir D)) eqn:EE; cbn [orb andb negb]; try (exfalso; congruence); rewrite ?(Rabs_pos_eq D) by lra; reflexivity.
Qed.
(** DistanceToIn from between the planes: nothing of the inside is passed over before the answer, and a finite answer leads to a point between the
    planes and in the tube thickened by a tolerance (for the answer zero: such a point at or shortly before the start).  Asked of the point and the ray as in C85_to_in, and [facing] as in C90_to_out. *)
Theorem C90_to_in_wall p dir : 0 < inf → kTolerance <= M → m = 0 ∨ kTolerance <= m → vmag p <= 100 * Rmax M inf → over b (- Z) p <= - kTolerance → over t Z p <= - kTolerance → ct_inside c p ≠ kInside →
  vdot dir dir = 1 → facing inf b (- Z) p dir → facing inf t Z p dir → sound (vz dir) → sound (1 - vz dir * vz dir) → (d < 2 * PI → sound (side s (vx dir) (vy dir)) ∧ sound (side (s + d) (vx dir) (vy dir))) →
  ¬ tube_core m M inf s d p → ¬ (M - kHalfTolerance < rho p < M ∧ 0 <= vx p * vx dir + vy p * vy dir) → (d < 2 * PI → m = 0 → ∀ u, 0 <= u → kHalfTolerance <= rho (along p dir u)) →
  (vx dir = 0 → vy dir = 0 → m <= rho p ∨ rho p * rho p + (Rabs (vz p) + inf) * (Rabs (vz p) + inf) * kTiny < m * m) →
  let D := ct_to_in_kernel inf c p dir in
  (∀ u, 0 < u < D → u < inf → ¬ (tube_core m M inf s d (along p dir u) ∧ between (along p dir u))) ∧
  (D < inf → 0 <= D ∧ between (along p dir D) ∧ ∃ e, e <= D ∧ (0 < D → e = D) ∧ tube_wide m M inf s d kTolerance (along p dir e)).
Proof using Hm Hd.
  intros HI HM Hm' Far Ob Ot NI Hu F1 F2 Hz Hn Hs Hout Hskin Hax Hpar. pose proof kTolerance_pos as KT.
  assert (MV : ray_move M inf p = 0) by (unfold ray_move; destruct (rgtb_spec (vmag p) (100 * Rmax M inf)); lra). assert (P0 : along p dir 0 = p) by (apply v3_eq; unfold along, vadd, vscale; cbn; ring).
  pose proof (C85_to_in inf UniversalTube m M inf s d p dir Hm HI Hd I HM Hm' Hu Hz Hn Hs) as TI. cbv zeta in TI. rewrite MV, P0 in TI. specialize (TI Hout Hskin Hax Hpar). destruct TI as (T1 & T2 & _). rewrite tube_struct_eq in T1, T2 by lra. rewrite to_in_moved, MV, P0, Rplus_0_r in T1, T2.
  destruct (plane_out inf HI inf b (- Z) p dir ltac:(lra) F1 ltac:(lra)) as (A1 & A2 & A3). destruct (plane_out inf HI inf t Z p dir ltac:(lra) F2 ltac:(lra)) as (B1 & B2 & B3).
  assert (EL : ct_lower c = Plane b (- - Z * vz b)) by (unfold c, cut_tube; cbn; f_equal; ring). assert (EU : ct_upper c = Plane t (- Z * vz t)) by done. rewrite <- EL in A1, A2, A3. rewrite <- EU in B1, B2, B3.
  assert (DL := dist_lower inf m M Z s d b t). assert (DU := dist_upper inf m M Z s d b t). fold c in DL, DU.
  cbv zeta. assert (ED : let dt := tube_to_in_kernel inf UniversalTube (tb m M inf s d) p dir in let dt := if rltb dt 0 then 0 else dt in let dt := if rltb (cut_to_out inf (ct_lower c) (ct_upper c) p dir) dt then inf else dt in ct_to_in_kernel inf c p dir = if rltb dt inf then dt else inf).
  { cbv zeta. unfold ct_to_in_kernel. cbv zeta. pose proof (c_parts inf m M Z s d b t Hm) as CP. fold c in CP. rewrite !CP.
    assert (CI : cut_inside (ct_lower c) (ct_upper c) p = kInside). { unfold cut_inside. cbv zeta. rewrite DL, DU. rewrite !Rabs_left1 by lra. destruct (rltb_spec (- over b (- Z) p) kTolerance); [lra|]. destruct (rltb_spec (- over t Z p) kTolerance); [lra|]. destruct (rltb_spec (over b (- Z) p) 0); [|lra]. destruct (rltb_spec (over t Z p) 0); [|lra]. done. }
    assert (SF : rgtb (cut_safety_in (ct_lower c) (ct_upper c) p) (- kTolerance) = false). { destruct (rgtb_spec (cut_safety_in (ct_lower c) (ct_upper c) p) (- kTolerance)) as [G|]; [|done]. exfalso. revert G. unfold cut_safety_in, plane_safety_in. rewrite DL, DU. unfold Rmax. destruct (Rle_dec _ _); lra. }
    rewrite CI, SF, andb_false_r. cbn [negb andb]. destruct (ct_inside c p) eqn:EI; [congruence| |]; cbn [orb]; rewrite !Rplus_0_r; done. }
  cbv zeta in ED. rewrite ED. clear ED. set (dt := tube_to_in_kernel inf UniversalTube (tb m M inf s d) p dir) in *. clearbody dt. unfold cut_to_out. set (Db := plane_to_out inf (ct_lower c) p dir) in *. set (Dt := plane_to_out inf (ct_upper c) p dir) in *. clearbody Db Dt.
  assert (BW : ∀ u, 0 <= u → u <= Db → u <= Dt → between (along p dir u)). { intros u U U1 U2. split; [rewrite <- DL; apply A2; lra|rewrite <- DU; apply B2; lra]. }
  assert (OUT : ∀ u, u < inf → Rmin Db Dt < u → ¬ between (along p dir u)). { intros u U L [W1 W2]. rewrite <- DL in W1. rewrite <- DU in W2. unfold Rmin in L. destruct (Rle_dec Db Dt); [destruct A3 as [A3|[A3|A3]]; [lra|lra|specialize (A3 u L); lra]|destruct B3 as [B3|[B3|B3]]; [lra|lra|specialize (B3 u L); lra]]. }
  assert (ML := Rmin_l Db Dt). assert (MR := Rmin_r Db Dt). assert (M0 : 0 <= Rmin Db Dt) by (by apply Rmin_glb). set (De := Rmin Db Dt) in *. clearbody De.
  assert (MISS : ∀ u, 0 < u → u < dt → u < inf → ¬ tube_core m M inf s d (along p dir u)) by (intros u U1 U2 U3; apply T1; lra).
  destruct (rltb_spec dt 0) as [N|N].
  - destruct (rltb_spec De 0); [lra|]. destruct (rltb_spec 0 inf); [|lra]. split; [intros; lra|]. intros _. split; [lra|]. split; [apply BW; lra|]. exists dt. split; [lra|]. split; [lra|]. apply T2. lra.
  - destruct (rltb_spec De dt) as [L|L].
    + destruct (rltb_spec inf inf); [lra|]. split; [|lra]. intros u U UI [C1 C2]. destruct (Rlt_le_dec u dt) as [V|V]; [by apply (MISS u); try lra|]. apply (OUT u); [lra|lra|done].
    + destruct (rltb_spec dt inf) as [V|V].
      * split; [intros u U UI [C1 _]; by apply (MISS u); try lra|]. intros _. split; [lra|]. split; [apply BW; lra|]. exists dt. split; [lra|]. split; [done|]. by apply T2.
      * split; [|lra]. intros u U UI [C1 _]. by apply (MISS u); try lra.
Qed.
End Extent.
Print Assumptions C90_extent.
Print Assumptions C90_choose.
Print Assumptions C90_planes_in.
Print Assumptions C90_to_in_inside.
Print Assumptions C90_to_in_lid.
Print Assumptions C90_to_in_wall.
(** The full tube of the radius 2 and the half length 4 under the tilted lid reaches 8/3 above it. *)
Example cut_extent : ct_extent (cut_tube 100 0 2 4 0 (2 * PI) flat tilted) = (V3 (-2) (-2) (-4), V3 2 2 (4 + 8 / 3)).
Proof.
  unfold ct_extent. cbv zeta. rewrite (c_parts 100 0 2 4 0 (2 * PI) flat tilted) by lra. cbn [tb tb_rmin tb_rmax tb_dphi]. destruct (reqb_spec (2 * PI) (2 * PI)) as [_|N]; [|done]. unfold cut_tube, flat, tilted. cbn [ct_upper ct_lower ct_dz pl_n vx vy vz].
  replace (1 - 3 / 5 * (3 / 5)) with (4 / 5 * (4 / 5)) by field. replace (1 - -1 * -1) with 0 by ring. rewrite sqrt_square, sqrt_0 by lra. f_equal; apply v3_eq; cbn [vx vy vz]; field.
Qed.
(** A ray down the axis enters the tilted lid after 6. *)
Example cut_enters : ct_to_in_kernel 100 (cut_tube 100 0 2 4 0 (2 * PI) flat tilted) (V3 0 0 10) (V3 0 0 (-1)) = 6.
Proof.
  pose proof PI_RGT_0. pose proof kTolerance_pos as KT. assert (K : kTolerance <= 1 / 1000) by (unfold kTolerance; lra). assert (KH : kHalfTolerance = kTolerance / 2) by (unfold kHalfTolerance; lra). assert (KA : kAbsorb <= 1 / 2) by (unfold kAbsorb; lra).
  assert (H1 : heading flat (V3 0 0 (-1))) by (left; unfold vdot, flat; cbn; lra). assert (H2 : heading tilted (V3 0 0 (-1))) by (right; unfold vdot, tilted; cbn; lra).
  assert (NB : ¬ between 4 flat tilted (V3 0 0 10)) by (intros [_ B]; unfold over, vdot, tilted in B; cbn in B; lra). assert (B : between 4 flat tilted (along (V3 0 0 10) (V3 0 0 (-1)) 7)) by (split; unfold over, vdot, flat, tilted, along; cbn; lra).
  set (D := cut_to_in 100 (ct_lower (cut_tube 100 0 2 4 0 (2 * PI) flat tilted)) (ct_upper (cut_tube 100 0 2 4 0 (2 * PI) flat tilted)) (V3 0 0 10) (V3 0 0 (-1))).
  destruct (C90_planes_in 100 0 2 4 0 (2 * PI) flat tilted (V3 0 0 10) (V3 0 0 (-1)) ltac:(lra) H1 H2 NB 7 ltac:(lra) B) as (DU & (D1 & D2) & DE). fold D in DU, D1, D2, DE. assert (E6 : D = 6). { clearbody D. unfold over, vdot, flat, tilted, along in D1, D2, DE. cbn in D1, D2, DE. destruct DE; lra. }
  rewrite (C90_to_in_lid 100 0 2 4 0 (2 * PI) flat tilted (V3 0 0 10) (V3 0 0 (-1)) 7 ltac:(lra) ltac:(lra) H1 H2 NB ltac:(lra) B); fold D; rewrite E6; [destruct (rltb_spec 6 kTolerance); lra|].
  intros Q. destruct (C85_inside UniversalTube 0 2 100 0 (2 * PI) (along (V3 0 0 10) (V3 0 0 (-1)) 6) ltac:(lra) ltac:(lra) ltac:(lra) I ltac:(lra) (or_introl eq_refl)) as (_ & _ & T3 & _). cbv zeta in T3. apply (T3 Q). replace (along (V3 0 0 10) (V3 0 0 (-1)) 6) with (V3 0 0 4) by (apply v3_eq; unfold along; cbn; lra). split; [cbn [vz]; rewrite Rabs_pos_eq; lra|]. rewrite rho_x, Rabs_R0. split; [lra|intros; lra].
Qed.
(** A ray along x towards the side of the same tube enters after 3. *)
Example cut_side_enters : let D := ct_to_in_kernel 100 (cut_tube 100 0 2 4 0 (2 * PI) flat tilted) (V3 (-5) 0 0) (V3 1 0 0) in 3 - kTolerance <= D <= 3.
Proof.
  pose proof PI_RGT_0. pose proof kTolerance_pos as KT. assert (K : kTolerance <= 1 / 1000) by (unfold kTolerance; lra). assert (KH : kHalfTolerance = kTolerance / 2) by (unfold kHalfTolerance; lra). assert (KA : kAbsorb <= 1 / 2) by (unfold kAbsorb; lra). destruct pipe_dir as (P1 & P2 & P3).
  assert (AL : ∀ u, along (V3 (-5) 0 0) (V3 1 0 0) u = V3 (u - 5) 0 0) by (intros; apply v3_eq; unfold along; cbn; ring).
  assert (OV : over flat (Ropp 4) (V3 (-5) 0 0) = -4 ∧ over tilted 4 (V3 (-5) 0 0) = -32 / 5) by (unfold over, vdot, flat, tilted; cbn; split; lra). destruct OV as [O1 O2]. assert (KTi : 100 * kTiny < 4) by (unfold kTiny; lra).
  assert (NC : ¬ tube_core 0 2 100 0 (2 * PI) (V3 (-5) 0 0)) by (intros (_ & C & _); rewrite rho_x, Rabs_left in C by lra; lra).
  assert (NI : ct_inside (cut_tube 100 0 2 4 0 (2 * PI) flat tilted) (V3 (-5) 0 0) ≠ kInside).
  { destruct tilted_facts as (F1 & F2 & F3 & F4). intros Q. destruct (C90_inside 100 0 2 4 0 (2 * PI) flat tilted) with (p := V3 (-5) 0 0) as (IN & _); try lra; try done; [cbn [vz]; rewrite Rabs_R0; lra|]. destruct (IN Q) as (_ & _ & C & _). rewrite rho_x, Rabs_left in C by lra. lra. }
  destruct (C90_to_in_wall 100 0 2 4 0 (2 * PI) flat tilted ltac:(lra) ltac:(lra) (V3 (-5) 0 0) (V3 1 0 0)) as (W1 & W2); try lra; try done; try (cbn [vx vy]; intros; lra); try (rewrite rho_x, Rabs_left by lra; intros [? _]; lra).
  - unfold vmag, vdot. cbn [vx vy vz]. replace (-5 * -5 + 0 * 0 + 0 * 0) with (5 * 5) by ring. rewrite sqrt_square by lra. pose proof (Rmax_r 2 100). lra.
  - right; right. split; [unfold vdot, flat; cbn; lra|]. rewrite O1. lra.
  - right; left. unfold vdot, tilted. cbn. lra.
  - cbv zeta. set (D := ct_to_in_kernel 100 _ _ _) in *. clearbody D.
    assert (L : ∀ u, 3 < u < 5 → D <= u). { intros u U. apply Rnot_lt_le. intros V. apply (W1 u); [lra|lra|]. rewrite AL. split; [|split; unfold over, vdot, flat, tilted; cbn; lra]. split; [cbn [vz]; rewrite Rabs_R0; lra|]. rewrite rho_x, Rabs_left by lra. split; [lra|]. split; intros; lra. }
    assert (L3 : D <= 3). { apply Rnot_lt_le. intros V. destruct (Rle_dec D 4); [specialize (L ((3 + D) / 2) ltac:(lra)); lra|specialize (L 4 ltac:(lra)); lra]. }
    split; [|done]. destruct (W2 ltac:(lra)) as (D0 & _ & e & E1 & _ & _ & (_ & E3) & _). rewrite AL, rho_x, Rabs_left in E3 by lra. lra.
Qed.
