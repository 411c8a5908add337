(** C85: where the ray distances of tubes go wrong. *)
From Coq Require Import Reals Lra Lia Bool ZArith Psatz.
From stdpp Require Import base list option numbers tactics.
From Verif Require Import Real3 AABBModel BoxModel BoxProofs PlanesModel PlanesProofs ConeModel ConeSpec ConeProofs WedgeModel WedgeSpec WedgeProofs WedgeProofs2 TubeModel TubeSpec TubeProofs TubeProofs2 TubeProofs3 TubeProofs4 TubeProofs5 TubeProofs6 PropTube2.
Import stdpp.list.
Local Open Scope R_scope.

Lemma small_numbers : 0 < kTolerance <= 1 / 1000 ∧ 2 * kHalfTolerance = kTolerance ∧ kAbsorb <= 1 / 1000 ∧ kAbsorb <= kHalfTolerance / 4.
Proof.
  split; [unfold kTolerance; lra|]. split; [unfold kHalfTolerance; field|]. assert (E : kAbsorb * (2 ^ 46) = 1) by (unfold kAbsorb; field). unfold kHalfTolerance, kTolerance. split; lra.
Qed.
Lemma nz_one : nz (1 - 0 * 0) = 1.
Proof. destruct small_numbers as (_ & _ & K & _). replace (1 - 0 * 0) with 1 by ring. apply nz_large. rewrite Rabs_R1. lra. Qed.
Lemma rho_sq x y z : rho (V3 x y z) * rho (V3 x y z) = x * x + y * y.
Proof. unfold rho. cbn [vx vy]. apply sqrt_sqrt. nra. Qed.
Lemma rho_at x y z r : 0 <= r → x * x + y * y = r * r → rho (V3 x y z) = r.
Proof. intros H E. unfold rho. cbn [vx vy]. rewrite E. by apply sqrt_square. Qed.
Lemma cos_3PI2 : cos (PI / 2 + PI) = 0.
Proof. rewrite neg_cos, cos_PI2. ring. Qed.
Lemma sin_3PI2 : sin (PI / 2 + PI) = -1.
Proof. rewrite neg_sin, sin_PI2. ring. Qed.
(** Half a turn: the kernel takes the x of the normal for its y (TubeImplementation.h:747-750), and rays that leave through the side
    are not stopped there. *)
Theorem C85_to_out_half_refuted : ¬ ∀ inf m M Z s p dir, 0 <= m < M → 0 < Z → tube_closed m M Z s PI p → vdot dir dir = 1 → 2 ^ 24 * M + 2 * Z < inf →
  ∀ u, 0 <= u <= tube_to_out inf (Hollow kOnePi) (tube_struct m M Z s PI) p dir → tube_closed m M Z s PI (along p dir u).
Proof.
  intros H. pose proof PI_RGT_0 as P. destruct small_numbers as (KT & KH & KA & _).
  specialize (H (2 ^ 30) 0 3 2 (PI / 2) (V3 (-1) 0 0) (V3 (3 / 5) (-4 / 5) 0) ltac:(lra) ltac:(lra)).
  assert (Sd : ∀ x y, sector (PI / 2) PI x y ↔ x <= 0). { intros x y. rewrite by_sides' by lra. unfold side. rewrite cos_3PI2, sin_3PI2, cos_PI2, sin_PI2. split; [intros [A _]; destruct (A ltac:(lra)); lra|intros; split; intros; lra]. }
  assert (Cp : tube_closed 0 3 2 (PI / 2) PI (V3 (-1) 0 0)). { split; [cbn [vz]; rewrite Rabs_R0; lra|]. rewrite (rho_at _ _ _ 1) by lra. split; [lra|]. intros _. apply Sd. cbn [vx]. lra. }
  specialize (H Cp ltac:(unfold vdot; cbn [vx vy vz]; field) ltac:(lra) 2). rewrite tube_struct_eq in H by lra.
  destruct (to_out_least (2 ^ 30) (Hollow kOnePi) 0 3 2 (PI / 2) PI ltac:(lra) ltac:(lra) ltac:(lra) ltac:(done) (V3 (-1) 0 0) (V3 (3 / 5) (-4 / 5) 0) Cp) as (_ & _ & D).
  set (D0 := tube_to_out _ _ _ _ _) in *. assert (D2 : 2 <= D0).
  { destruct D as [->|D]; [lra|]. destruct D as [(A & _)|[(A & _)|[A|[(_ & A & _)|(_ & A)]]]]; try (exfalso; cbn [vz] in A; lra); [|done|].
    - apply circle_some in A; [|lra|lra|lra|done]. destruct A as (_ & -> & _). cbn [vx vy vz]. rewrite nz_one.
      replace (1 / 1 * (3 / 5 * -1 + -4 / 5 * 0) * (1 / 1 * (3 / 5 * -1 + -4 / 5 * 0)) - (-1 * -1 + 0 * 0 - 3 * 3) * (1 / 1)) with (209 / 25) by field.
      assert (2 <= R_sqrt.sqrt (209 / 25)) by (rewrite <- (sqrt_square 2) by lra; apply sqrt_le_1; lra). lra.
    - exfalso. unfold plane_hit in A. cbn [sector_type vx vy vz] in A. rewrite cos_3PI2, sin_3PI2 in A. cbv zeta in A. destruct (rltb_spec (3 / 5 * -1 + -4 / 5 * -1) 0) as [L|L]; [lra|]. cbn [andb] in A. discriminate. }
  specialize (H ltac:(lra)). destruct H as (_ & _ & H). specialize (H ltac:(lra)). apply Sd in H. unfold along, vadd, vscale in H. cbn [vx] in H. lra.
Qed.
Print Assumptions C85_to_out_half_refuted.
(** From the inner surface, almost tangentially and away from the axis, DistanceToOut is negative. *)
Theorem C85_to_out_tangent_refuted : ¬ ∀ inf m M Z s p dir, 0 < m < M → 0 < Z → tube_closed m M Z s (2 * PI) p → vdot dir dir = 1 → 2 ^ 24 * M + 2 * Z < inf →
  0 <= tube_to_out inf UniversalTube (tube_struct m M Z s (2 * PI)) p dir.
Proof.
  intros H. pose proof PI_RGT_0 as P. destruct small_numbers as (KT & KH & KA & _). set (e := kHalfTolerance) in *.
  specialize (H (2 ^ 30) 1 3 2 0 (V3 1 0 0) (V3 e (R_sqrt.sqrt (1 - e * e)) 0) ltac:(lra) ltac:(lra)). assert (E : 0 <= 1 - e * e) by nra. pose proof (sqrt_sqrt _ E) as Q. set (g := R_sqrt.sqrt (1 - e * e)) in *.
  assert (Cp : tube_closed 1 3 2 0 (2 * PI) (V3 1 0 0)). { split; [cbn [vz]; rewrite Rabs_R0; lra|]. rewrite axis_rho by lra. split; [lra|intros; lra]. }
  specialize (H Cp ltac:(unfold vdot; cbn [vx vy vz]; lra) ltac:(lra)). rewrite tube_struct_eq in H by lra.
  destruct (to_out_least (2 ^ 30) UniversalTube 1 3 2 0 (2 * PI) ltac:(lra) ltac:(lra) ltac:(lra) I (V3 1 0 0) (V3 e g 0) Cp) as (L & _ & _).
  assert (K : - (2 * e) < 0) by lra. revert K. apply Rle_not_lt. eapply Rle_trans; [exact H|]. apply L. right; left. split; [lra|]. apply circle_some; [lra|lra|lra|done|]. cbn [vx vy vz]. rewrite nz_one.
  replace (1 / 1 * (e * 1 + g * 0) * (1 / 1 * (e * 1 + g * 0)) - (1 * 1 + 0 * 0 - 1 * 1) * (1 / 1)) with (e * e) by field. rewrite sqrt_square by lra. split; [left; nra|]. split; [field|]. split; [lra|]. discriminate.
Qed.
Print Assumptions C85_to_out_tangent_refuted.
Lemma wide_quarters s1 : s1 = 3 * (PI / 2) → ∀ x y, sector 0 s1 x y ↔ 0 <= y ∨ x <= 0.
Proof.
  intros -> x y. pose proof PI_RGT_0. rewrite by_sides' by lra. unfold side. rewrite Rplus_0_l, cos_0, sin_0. replace (3 * (PI / 2)) with (PI / 2 + PI) by field. rewrite cos_3PI2, sin_3PI2. split; [intros [_ A]; destruct (A ltac:(lra)); lra|intros A; split; intros; [lra|destruct A; [left|right]; lra]].
Qed.
(** Three quarters of a turn, from just below the start plane on the other side of the axis: the answer is a length of the size of
    the tube, negative, back to the start side. *)
Theorem C85_to_out_wide_refuted : ¬ ∀ inf m M Z s d p dir, 0 <= m < M → 0 < Z → PI < d < 2 * PI → tube_closed m M Z s d p → vdot dir dir = 1 → 2 ^ 24 * M + 2 * Z < inf →
  -1 < tube_to_out inf UniversalTube (tube_struct m M Z s d) p dir.
Proof.
  intros H. pose proof PI_RGT_0 as P. destruct small_numbers as (KT & KH & KA & KB). set (e := kHalfTolerance / 4) in *.
  specialize (H (2 ^ 30) 0 3 2 0 (3 * (PI / 2)) (V3 (-1) (- kHalfTolerance / 2) 0) (V3 (- R_sqrt.sqrt (1 - e * e)) (- e) 0) ltac:(lra) ltac:(lra) ltac:(lra)). assert (E0 : 0 < e <= 1 / 2) by (unfold e; lra). assert (E : 1 - e * e <= 1 ∧ 1 / 4 <= 1 - e * e) by nra. pose proof (sqrt_sqrt (1 - e * e) ltac:(lra)) as Q.
  assert (G : 1 / 2 <= R_sqrt.sqrt (1 - e * e)) by (rewrite <- (sqrt_square (1 / 2)) by lra; apply sqrt_le_1; lra). set (g := R_sqrt.sqrt (1 - e * e)) in *.
  assert (Cp : tube_closed 0 3 2 0 (3 * (PI / 2)) (V3 (-1) (- kHalfTolerance / 2) 0)).
  { split; [cbn [vz]; rewrite Rabs_R0; lra|]. split; [|intros _; apply wide_quarters; [done|]; cbn [vx vy]; lra]. split; [apply rho_nonneg|]. pose proof (rho_sq (-1) (- kHalfTolerance / 2) 0) as R. pose proof (rho_nonneg (V3 (-1) (- kHalfTolerance / 2) 0)). nra. }
  specialize (H Cp ltac:(unfold vdot; cbn [vx vy vz]; lra) ltac:(lra)). rewrite tube_struct_eq in H by lra.
  destruct (to_out_least (2 ^ 30) UniversalTube 0 3 2 0 (3 * (PI / 2)) ltac:(lra) ltac:(lra) ltac:(lra) I (V3 (-1) (- kHalfTolerance / 2) 0) (V3 (- g) (- e) 0) Cp) as (L & _ & _).
  assert (K : -2 < -1) by lra. revert K. apply Rle_not_lt. left. eapply Rlt_le_trans; [exact H|]. apply L. right; right; right; left. split; [lra|]. split; [done|]. rewrite sin_0, cos_0. unfold plane_hit. cbv zeta. cbn [sector_type vx vy vz].
  replace (- e * 1 - - g * 0) with (- e) by ring. rewrite nz_large by (rewrite Rabs_Ropp, Rabs_pos_eq; lra). replace (- g * - 0 + - e * 1) with (- e) by ring. rewrite Rabs_Ropp, Rabs_pos_eq by lra.
  replace ((0 * -1 - 1 * (- kHalfTolerance / 2)) / - e) with (-2) by (unfold e; field; lra). destruct (rltb_spec (- e) 0); [|lra]. cbn [andb]. destruct (rgtb_spec (-2 * e) (- kHalfTolerance)) as [?|N]; [|unfold e in N; lra]. cbn [andb].
  destruct (rgeb_spec ((-1 + -2 * - g) * 1 + (- kHalfTolerance / 2 + -2 * - e) * 0) 0) as [?|N]; [done|exfalso; lra].
Qed.
Print Assumptions C85_to_out_wide_refuted.
(** Through the axis of three quarters of a turn: the answer stops at the axis, the ray goes on inside. *)
Theorem C85_to_out_axis_refuted : ¬ ∀ inf M Z s d p dir, 0 < M → 0 < Z → PI < d < 2 * PI → tube_closed 0 M Z s d p → vdot dir dir = 1 → 2 ^ 24 * M + 2 * Z < inf →
  ∀ L, 0 <= L → (∀ u, 0 <= u <= L → tube_closed 0 M Z s d (along p dir u)) → L <= tube_to_out inf UniversalTube (tube_struct 0 M Z s d) p dir.
Proof.
  intros H. pose proof PI_RGT_0 as P. destruct small_numbers as (KT & KH & KA & _).
  specialize (H (2 ^ 30) 3 2 0 (3 * (PI / 2)) (V3 (3 / 5) (4 / 5) 0) (V3 (- (3 / 5)) (- (4 / 5)) 0) ltac:(lra) ltac:(lra) ltac:(lra)).
  assert (CC : ∀ u, 0 <= u <= 4 → tube_closed 0 3 2 0 (3 * (PI / 2)) (along (V3 (3 / 5) (4 / 5) 0) (V3 (- (3 / 5)) (- (4 / 5)) 0) u)).
  { intros u U. unfold along, vadd, vscale. cbn [vx vy vz]. split; [cbn [vz]; rewrite Rmult_0_r, Rplus_0_r, Rabs_R0; lra|]. split; [|intros _; apply wide_quarters; [done|]; cbn [vx vy]; lra]. split; [apply rho_nonneg|].
    pose proof (rho_sq (3 / 5 + u * - (3 / 5)) (4 / 5 + u * - (4 / 5)) (0 + u * 0)) as R. pose proof (rho_nonneg (V3 (3 / 5 + u * - (3 / 5)) (4 / 5 + u * - (4 / 5)) (0 + u * 0))). nra. }
  assert (Cp : tube_closed 0 3 2 0 (3 * (PI / 2)) (V3 (3 / 5) (4 / 5) 0)). { specialize (CC 0 ltac:(lra)). replace (along _ _ 0) with (V3 (3 / 5) (4 / 5) 0) in CC by (apply v3_eq; unfold along, vadd, vscale; cbn; ring). done. }
  specialize (H Cp ltac:(unfold vdot; cbn [vx vy vz]; field) ltac:(lra) 4 ltac:(lra) CC). rewrite tube_struct_eq in H by lra.
  destruct (to_out_least (2 ^ 30) UniversalTube 0 3 2 0 (3 * (PI / 2)) ltac:(lra) ltac:(lra) ltac:(lra) I _ (V3 (- (3 / 5)) (- (4 / 5)) 0) Cp) as (L & _ & _).
  assert (K : 1 < 4) by lra. revert K. apply Rle_not_lt. eapply Rle_trans; [exact H|]. apply L. right; right; right; left. split; [lra|]. split; [done|]. rewrite sin_0, cos_0. unfold plane_hit. cbv zeta. cbn [sector_type vx vy vz].
  replace (- (4 / 5) * 1 - - (3 / 5) * 0) with (- (4 / 5)) by ring. rewrite nz_large by (rewrite Rabs_Ropp, Rabs_pos_eq; lra). replace (- (3 / 5) * - 0 + - (4 / 5) * 1) with (- (4 / 5)) by ring. rewrite Rabs_Ropp, Rabs_pos_eq by lra.
  replace ((0 * (3 / 5) - 1 * (4 / 5)) / - (4 / 5)) with 1 by field. destruct (rltb_spec (- (4 / 5)) 0); [|lra]. cbn [andb]. destruct (rgtb_spec (1 * (4 / 5)) (- kHalfTolerance)) as [?|N]; [|exfalso; lra]. cbn [andb].
  destruct (rgeb_spec ((3 / 5 + 1 * - (3 / 5)) * 1 + (4 / 5 + 1 * - (4 / 5)) * 0) 0) as [?|N]; [done|exfalso; lra].
Qed.
Print Assumptions C85_to_out_axis_refuted.
Lemma quarter_sides x y : open_sector 0 (PI / 2) x y ↔ 0 < y ∧ 0 < x.
Proof.
  pose proof PI_RGT_0. rewrite open_sides by lra. unfold side. rewrite Rplus_0_l, cos_0, sin_0, cos_PI2, sin_PI2. split; [intros [A _]; destruct (A ltac:(lra)); lra|intros []; split; intros; lra].
Qed.
(** A quarter without hole: the ray that enters exactly through the axis is missed. *)
Theorem C85_to_in_axis_refuted : ¬ ∀ inf M Z s d p dir, 0 < M → 0 < Z → 0 < d < 2 * PI → vdot dir dir = 1 → ¬ tube_closed 0 M Z s d p → vmag p <= 100 * Rmax M Z →
  ∀ u, 0 <= u → u < inf → tube_core 0 M Z s d (along p dir u) → tube_to_in inf UniversalTube (tube_struct 0 M Z s d) p dir <= u.
Proof.
  intros H. pose proof PI_RGT_0 as P. destruct small_numbers as (KT & KH & KA & _). set (dir := V3 (3 / 5) (4 / 5) 0). set (p := V3 (-3) (-4) 0).
  assert (Rp : rho p = 5) by (apply rho_at; lra). assert (Mp : vmag p = 5). { unfold vmag, vdot, p; cbn [vx vy vz]. replace (-3 * -3 + -4 * -4 + 0 * 0) with (5 * 5) by ring. apply sqrt_square. lra. }
  specialize (H (2 ^ 30) 3 2 0 (PI / 2) p dir ltac:(lra) ltac:(lra) ltac:(lra)). specialize (H ltac:(unfold vdot, dir; cbn [vx vy vz]; field)).
  specialize (H ltac:(intros (_ & A & _); rewrite Rp in A; lra)). specialize (H ltac:(rewrite Mp, Rmax_left; lra) 6 ltac:(lra) ltac:(lra)).
  assert (C6 : tube_core 0 3 2 0 (PI / 2) (along p dir 6)). { replace (along p dir 6) with (V3 (3 / 5) (4 / 5) 0) by (apply v3_eq; unfold along, vadd, vscale, p, dir; cbn; field). split; [cbn [vz]; rewrite Rabs_R0; lra|]. rewrite (rho_at _ _ _ 1) by lra. split; [lra|]. split; [lra|]. intros _. apply quarter_sides. cbn [vx vy]. lra. }
  specialize (H C6). clear C6. rewrite tube_struct_eq, to_in_moved in H by lra. assert (E0 : ray_move 3 2 p = 0). { unfold ray_move. rewrite Mp, Rmax_left by lra. destruct (rgtb_spec 5 (100 * 3)); [lra|done]. }
  rewrite E0, Rplus_0_r in H. replace (along p dir 0) with p in H by (apply v3_eq; unfold along, vadd, vscale, p, dir; cbn; ring).
  destruct (in_cases (2 ^ 30) UniversalTube 0 3 2 0 (PI / 2) ltac:(lra) ltac:(lra) ltac:(lra) I ltac:(lra) ltac:(lra) p dir) as [(_ & A)|[(_ & A & _)|[(_ & _ & A & _)|[(_ & _ & _ & A & _)|[(_ & _ & _ & A & _)|(_ & _ & _ & _ & _ & _ & [A|A])]]]]].
  - rewrite A in H. lra.
  - destruct A as (_ & A & _). lra.
  - destruct A as (_ & A & _). unfold p in A. cbn [vz] in A. lra.
  - destruct A as (_ & [A|A] & _); lra.
  - apply circle_some in A; [|lra|lra|lra|done]. destruct A as (_ & B & _ & A). destruct (A eq_refl) as [_ W]. specialize (W ltac:(lra)). rewrite B in W. revert W. rewrite Rp. unfold p, dir. cbn [vx vy vz]. rewrite nz_one.
    replace (1 / 1 * (-3 * (3 / 5) + -4 * (4 / 5)) * (1 / 1 * (-3 * (3 / 5) + -4 * (4 / 5))) - 1 / 1 * (5 * 5 - 3 * 3)) with (3 * 3) by field. rewrite sqrt_square by lra. intros [W _]. destruct (W ltac:(lra)) as [W1 _]. unfold side in W1. rewrite cos_0, sin_0 in W1. lra.
  - rewrite A in H. lra.
  - destruct A as [(A & _)|[(_ & A)|(_ & _ & A)]]; [lra| |].
    + rewrite cos_0, sin_0 in A. unfold plane_hit, p, dir in A. cbv zeta in A. cbn [sector_type vx vy vz] in A. replace (4 / 5 * 1 - 3 / 5 * 0) with (4 / 5) in A by ring. rewrite nz_large in A by (rewrite Rabs_pos_eq; lra). replace ((0 * -3 - 1 * -4) / (4 / 5)) with 5 in A by field.
      replace ((-3 + 5 * (3 / 5)) * 1 + (-4 + 5 * (4 / 5)) * 0) with 0 in A by field. destruct (rgtb_spec 0 0) as [N|N] in A; [lra|]. rewrite andb_false_r in A. discriminate.
    + rewrite Rplus_0_l, cos_PI2, sin_PI2 in A. unfold plane_hit, p, dir in A. cbv zeta in A. cbn [sector_type vx vy vz] in A. replace (4 / 5 * 0 - 3 / 5 * 1) with (- (3 / 5)) in A by ring. rewrite nz_large in A by (rewrite Rabs_Ropp, Rabs_pos_eq; lra). replace ((1 * -3 - 0 * -4) / - (3 / 5)) with 5 in A by field.
      replace ((-3 + 5 * (3 / 5)) * 0 + (-4 + 5 * (4 / 5)) * 1) with 0 in A by field. destruct (rgtb_spec 0 0) as [N|N] in A; [lra|]. rewrite andb_false_r in A. discriminate.
Qed.
Print Assumptions C85_to_in_axis_refuted.
(** From the hole, just above the start plane: the answer is a length of the size of the tube, negative, back to the side. *)
Theorem C85_to_in_sign_refuted : ¬ ∀ inf m M Z s d p dir, 0 < m < M → 0 < Z → 0 < d < 2 * PI → vdot dir dir = 1 → ¬ tube_closed m M Z s d p → vmag p <= 100 * Rmax M Z →
  2 ^ 24 * M + 2 * Z < inf → -1 < tube_to_in inf UniversalTube (tube_struct m M Z s d) p dir.
Proof.
  intros H. pose proof PI_RGT_0 as P. destruct small_numbers as (KT & KH & KA & KB). set (e := kHalfTolerance / 4) in *. assert (E0 : 0 < e <= 1 / 100) by (unfold e; lra). assert (E : 1 - e * e <= 1 ∧ 81 / 100 <= 1 - e * e) by nra. pose proof (sqrt_sqrt (1 - e * e) ltac:(lra)) as Q.
  assert (G : 9 / 10 <= R_sqrt.sqrt (1 - e * e)) by (rewrite <- (sqrt_square (9 / 10)) by lra; apply sqrt_le_1; lra). set (g := R_sqrt.sqrt (1 - e * e)) in *. assert (G1 : g <= 1) by nra. clearbody g.
  assert (EH : kHalfTolerance / 2 = 2 * e) by (unfold e; field). assert (EK : kHalfTolerance = 4 * e) by (unfold e; field). clearbody e. set (dir := V3 (- g) e 0). set (p := V3 (1 / 2) (2 * e) 0).
  assert (Rs : rho p * rho p = 1 / 4 + 4 * (e * e)) by (unfold p; rewrite rho_sq; field). assert (Rp : 0 <= rho p <= 9 / 10) by (pose proof (rho_nonneg p); nra).
  assert (Mp : vmag p <= 1). { unfold vmag, vdot, p; cbn [vx vy vz]. apply (Rle_trans _ (R_sqrt.sqrt 1)); [apply sqrt_le_1; nra|rewrite sqrt_1; lra]. }
  specialize (H (2 ^ 30) 1 3 2 0 (PI / 2) p dir ltac:(lra) ltac:(lra) ltac:(lra)). specialize (H ltac:(unfold vdot, dir; cbn [vx vy vz]; lra)).
  specialize (H ltac:(intros (_ & A & _); lra)). specialize (H ltac:(rewrite Rmax_left; lra) ltac:(lra)).
  rewrite tube_struct_eq, to_in_moved in H by lra. assert (E1 : ray_move 3 2 p = 0). { unfold ray_move. rewrite Rmax_left by lra. destruct (rgtb_spec (vmag p) (100 * 3)); [lra|done]. }
  rewrite E1, Rplus_0_r in H. replace (along p dir 0) with p in H by (apply v3_eq; unfold along, vadd, vscale, p, dir; cbn; ring).
  destruct (in_cases (2 ^ 30) UniversalTube 1 3 2 0 (PI / 2) ltac:(lra) ltac:(lra) ltac:(lra) I ltac:(lra) ltac:(lra) p dir) as [(A & _)|[(_ & A & _)|[(_ & _ & A & _)|[(_ & _ & _ & A & _)|[(_ & _ & _ & A & _)|(_ & _ & _ & _ & L & _)]]]]].
  - destruct A as [(A & _)|(A & _)]; [unfold p in A; cbn [vz] in A; rewrite Rabs_R0 in A; lra|]. nra.
  - destruct A as (_ & _ & A & _). specialize (A ltac:(lra)). lra.
  - destruct A as (_ & A & _). unfold p in A. cbn [vz] in A. lra.
  - destruct A as (_ & [A|A] & _); lra.
  - apply circle_some in A; [|lra|lra|lra|done]. destruct A as (_ & B & A & _). set (D := tube_to_in_kernel _ _ _ _ _) in *. clearbody D. revert B. rewrite Rs. unfold p, dir. cbn [vx vy vz]. rewrite nz_one. set (b := 1 / 1 * (1 / 2 * - g + 2 * e * e)).
    assert (B1 : -1 <= b <= 0) by (unfold b; nra). assert (S : 2 <= R_sqrt.sqrt (b * b - 1 / 1 * (1 / 4 + 4 * (e * e) - 3 * 3))) by (rewrite <- (sqrt_square 2) by lra; apply sqrt_le_1; nra). intros ->. lra.
  - assert (X : tube_to_in_kernel (2 ^ 30) UniversalTube (tb 1 3 2 0 (PI / 2)) p dir <= -2); [|lra]. apply L. right; left. split; [lra|]. apply plane_some.
    assert (S1 : side 0 (vx dir) (vy dir) = e) by (unfold side, dir; cbn [vx vy]; rewrite cos_0, sin_0; ring). assert (S2 : side 0 (vx p) (vy p) = 2 * e) by (unfold side, p; cbn [vx vy]; rewrite cos_0, sin_0; ring). rewrite S1, S2. rewrite nz_large by (rewrite Rabs_pos_eq; lra).
    rewrite cos_0, sin_0. replace (vx dir * - 0 + vy dir * 1) with e by (unfold dir; cbn [vx vy]; ring). cbv zeta. rewrite (Rabs_pos_eq e) by lra. split; [lra|]. split; [field; lra|]. split; [lra|].
    replace (along p dir (-2)) with (V3 (1 / 2 + 2 * g) 0 0) by (apply v3_eq; unfold along, vadd, vscale, p, dir; cbn; field). rewrite axis_rho by lra. cbn [vx vy vz]. rewrite Rabs_R0. split; [lra|]. split; [split; nra|]. intros _. unfold ahead. rewrite cos_0, sin_0. lra.
Qed.
Print Assumptions C85_to_in_sign_refuted.
