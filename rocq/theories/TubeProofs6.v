(** DistanceToIn of tubes: nothing is passed over, and the answer reaches the border. *)
From Coq Require Import Reals Lra Lia Bool ZArith Psatz.
From stdpp Require Import base list option numbers tactics.
From Verif Require Import Real3 AABBModel BoxModel BoxProofs PlanesModel PlanesProofs ConeModel ConeSpec ConeProofs WedgeModel WedgeSpec WedgeProofs WedgeProofs2 TubeModel TubeSpec TubeProofs TubeProofs2 TubeProofs3 TubeProofs4 TubeProofs5.
Import stdpp.list.
Local Open Scope R_scope.

Lemma roots b De r x : r * r = De → 0 <= r → (x + b) * (x + b) = De → x = - b + r ∨ x = - b - r.
Proof. intros E P H. assert (K : (x + b - r) * (x + b + r) = 0) by (rewrite <- E in H; lra). apply Rmult_integral in K. destruct K; [left|right]; lra. Qed.
Lemma abs_cross z dz v : 0 <= v → z * dz < 0 → Rabs z - v * Rabs dz <= Rabs (z + v * dz).
Proof. intros Hv H. destruct (Rle_dec 0 z), (Rle_dec 0 dz); try (exfalso; nra). - rewrite (Rabs_right z), (Rabs_left dz) by lra. pose proof (Rle_abs (z + v * dz)). lra. - rewrite (Rabs_left z), (Rabs_right dz) by lra. pose proof (Rle_abs (- (z + v * dz))) as K. rewrite Rabs_Ropp in K. lra. Qed.
Lemma abs_grow z dz v : 0 <= v → 0 <= z * dz → Rabs z <= Rabs (z + v * dz).
Proof.
  intros Hv H. destruct (Rle_dec 0 z).
  - rewrite (Rabs_right z) by lra. destruct (Rle_dec 0 dz); [pose proof (Rle_abs (z + v * dz)); nra|]. assert (z = 0) as -> by nra. apply Rabs_pos.
  - rewrite (Rabs_left z) by lra. pose proof (Rle_abs (- (z + v * dz))) as K. rewrite Rabs_Ropp in K. assert (dz <= 0) by nra. nra.
Qed.

Section In.
Variables (inf : R) (k : tube_type) (m M Z s d : R).
Hypothesis Hm : 0 <= m < M.
Hypothesis HZ : 0 < Z.
Hypothesis Hd : 0 < d <= 2 * PI.
Hypothesis Hk : tube_fits k m d.
Hypothesis HM : kTolerance <= M.
Hypothesis Hm' : m = 0 ∨ kTolerance <= m.
Let t := tb m M Z s d.
Variables (p dir : v3).
Let q (u : R) : v3 := along p dir u.
Let core := tube_core m M Z s d.
Let closed := tube_closed m M Z s d.
Let h := kHalfTolerance.
Let rdotn := vx p * vx dir + vy p * vy dir.
Let tz := (Rabs (vz p) - Z) / nz (Rabs (vz dir)).
Let inv := 1 / nz (1 - vz dir * vz dir).
Let b := inv * rdotn.
Let outer := circle_hit k t false true b (inv * (rho p * rho p - M * M)) p dir.
Let inner := circle_hit k t true true b (inv * (rho p * rho p - m * m)) p dir.
Let pos := match sector_type k with kOnePi => false | _ => true end.
Let n := vx dir * vx dir + vy dir * vy dir.
Let De (A : R) := b * b - inv * (rho p * rho p - A * A).
Hypothesis Hu : vdot dir dir = 1.
Hypothesis Hz0 : vz dir = 0 ∨ kAbsorb <= Rabs (vz dir).
Hypothesis Hn0 : 1 - vz dir * vz dir = 0 ∨ kAbsorb <= Rabs (1 - vz dir * vz dir).
Hypothesis Hs0 : d < 2 * PI → (side s (vx dir) (vy dir) = 0 ∨ kAbsorb <= Rabs (side s (vx dir) (vy dir))) ∧ (side (s + d) (vx dir) (vy dir) = 0 ∨ kAbsorb <= Rabs (side (s + d) (vx dir) (vy dir))).
Hypothesis Hskin : ¬ (M - h < rho p < M ∧ 0 <= rdotn).
Hypothesis Hax : d < 2 * PI → m = 0 → ∀ u, 0 <= u → h <= rho (q u).
Hypothesis Hpar : vx dir = 0 → vy dir = 0 → m <= rho p ∨ rho p * rho p + (Rabs (vz p) + Z) * (Rabs (vz p) + Z) * kTiny < m * m.
Hypothesis Hout : ¬ core p.
Lemma half6 : 0 < h ∧ 2 * h = kTolerance.
Proof using. apply half_tol. Qed.
Lemma n6 : 1 - vz dir * vz dir = n.
Proof using Hu. unfold n. unfold vdot in Hu. lra. Qed.
Lemma n6_pos : 0 <= n.
Proof using. unfold n. pose proof (Rle_0_sqr (vx dir)). pose proof (Rle_0_sqr (vy dir)). unfold Rsqr in *. lra. Qed.
Lemma flat6 : n = 0 → vx dir = 0 ∧ vy dir = 0 ∧ vz dir * vz dir = 1.
Proof using Hu. intros H. pose proof n6. unfold n in *. clear - H H0. split; [nra|]. split; [nra|]. lra. Qed.
Lemma rho_const : n = 0 → ∀ u, rho (q u) = rho p.
Proof using Hu. intros N u. destruct (flat6 N) as (F1 & F2 & _). unfold rho, q, along, vadd, vscale; cbn. by rewrite F1, F2, !Rmult_0_r, !Rplus_0_r. Qed.
Lemma inv6 : n ≠ 0 → inv = 1 / n.
Proof using Hu Hn0. intros H. unfold inv. rewrite absorbed; [by rewrite n6|done|by rewrite n6]. Qed.
Lemma sign6 A u : n ≠ 0 → 0 <= A → (rho (q u) <= A ↔ (u + b) * (u + b) - De A <= 0) ∧ (A <= rho (q u) ↔ 0 <= (u + b) * (u + b) - De A) ∧ (A < rho (q u) ↔ 0 < (u + b) * (u + b) - De A) ∧ (rho (q u) < A ↔ (u + b) * (u + b) - De A < 0).
Proof using Hu Hn0.
  intros N HA. pose proof n6_pos. apply (quad n); [lra|apply rho_nonneg|done|]. pose proof (r2_square p dir A n u ltac:(lra) eq_refl) as E. cbv zeta in E. unfold q. rewrite E. unfold De, b, rdotn. rewrite inv6 by done.
  rewrite (Rmult_comm (1 / n) (rho p * rho p - A * A)). done.
Qed.
Lemma flat_De A : n = 0 → b = 0 ∧ De A = (A * A - rho p * rho p) / kTiny.
Proof using Hu.
  intros N. destruct (flat6 N) as (F1 & F2 & F3). assert (B0 : b = 0) by (unfold b, rdotn; rewrite F1, F2; ring). split; [done|]. unfold De. rewrite B0. unfold inv. rewrite F3. replace (1 - 1) with 0 by ring. rewrite nz_zero. pose proof kTiny_pos. field. lra.
Qed.
Lemma vz_cases : vz p * vz dir < 0 → kAbsorb <= Rabs (vz dir) ∧ tz * Rabs (vz dir) = Rabs (vz p) - Z.
Proof using Hz0.
  intros H. assert (V : vz dir ≠ 0) by (intros E; rewrite E in H; lra). destruct Hz0 as [|K]; [done|]. split; [done|]. pose proof (Rabs_pos_lt _ V).
  assert (E : nz (Rabs (vz dir)) = Rabs (vz dir)) by (apply nz_large; rewrite Rabs_Rabsolu; done). unfold tz. rewrite E. field. lra.
Qed.
Lemma z_at_tz : vz p * vz dir < 0 → Rabs (vz (q tz)) = Z.
Proof using Hz0 HZ.
  intros H. destruct (vz_cases H) as [K E]. change (vz (q tz)) with (vz p + tz * vz dir). revert E. generalize tz. intros x E. destruct (Rle_dec 0 (vz p)) as [R0|R0].
  - assert (vz dir < 0) by (clear - H R0; nra). rewrite (Rabs_right (vz p)), (Rabs_left (vz dir)) in E by lra. replace (vz p + x * vz dir) with Z by lra. apply Rabs_right. lra.
  - assert (0 < vz dir) by (clear - H R0; nra). rewrite (Rabs_left (vz p)), (Rabs_right (vz dir)) in E by lra. replace (vz p + x * vz dir) with (- Z) by lra. rewrite Rabs_left; lra.
Qed.
(** Nothing of the inside once the ray cannot come back. *)
Lemma done_out u : in_done M Z p dir → 0 <= u → ¬ core (q u).
Proof using HM Hskin Hm.
  clear Hout. pose proof half6 as [H1 H2]. pose proof (rho_nonneg p) as R0. intros [(A & B)|(A & B)] U (Cz & Cr & _).
  - change (vz (q u)) with (vz p + u * vz dir) in Cz. pose proof (abs_grow (vz p) (vz dir) u U B). fold h in A. lra.
  - fold rdotn in B. fold h in A. assert (A' : M - h < rho p) by (apply sqr_lt; lra). assert (A2 : M <= rho p) by (apply Rnot_lt_le; intros K; apply Hskin; split; [lra|done]).
    assert (E : rho p * rho p <= rho (q u) * rho (q u)).
    { unfold q. rewrite r2_along. fold rdotn n. pose proof n6_pos as N. assert (0 <= 2 * u * rdotn) by (apply Rmult_le_pos; lra). assert (0 <= u * u * n) by (apply Rmult_le_pos; [apply Rmult_le_pos|]; lra). lra. }
    assert (rho p <= rho (q u)) by (apply sqr_le; [done|apply rho_nonneg|done]). lra.
Qed.
Lemma deep_core : in_deep m M Z s d p → core p.
Proof using Hd HZ Hm.
  clear Hout. pose proof half6 as [H1 H2]. intros (A & B & C & F). fold h in A, B, C, F. split; [lra|]. split; [lra|]. split; [intros K; specialize (C K); lra|]. intros K. apply open_sides; [lra|]. destruct (F K) as [F1 F2]. clear - F1 F2 H1. split; intros P; [destruct (F1 P); lra|destruct (F2 P); lra].
Qed.
(** Where a ray enters, the kernel has an answer not after it. *)
Lemma enter_z v u : 0 <= v < u → closed (q v) → Rabs (vz (q v)) = Z → (∀ w, v < w <= u → core (q w)) → in_okz m M Z s d p dir.
Proof using Hm HZ Hd Hz0.
  pose proof half6 as [H1 H2]. intros Hv (Cz & Cr & Cs) E AFT. destruct (AFT u ltac:(lra)) as (U & _). change (vz (q v)) with (vz p + v * vz dir) in E. change (vz (q u)) with (vz p + u * vz dir) in U.
  assert (S : vz p * vz dir < 0 ∧ Rabs (vz p) - Z = v * Rabs (vz dir)).
  { apply Rabs_def2 in U. destruct (Rle_dec 0 (vz p + v * vz dir)).
    - rewrite Rabs_right in E by lra. assert (vz dir < 0) by (clear - E U Hv; nra). assert (0 < vz p) by (clear - E Hv H HZ; nra). split; [clear - H H0; nra|]. rewrite (Rabs_right (vz p)), (Rabs_left (vz dir)) by lra. lra.
    - rewrite Rabs_left in E by lra. assert (0 < vz dir) by (clear - E U Hv; nra). assert (vz p < 0) by (clear - E Hv H HZ; nra). split; [clear - H H0; nra|]. rewrite (Rabs_left (vz p)), (Rabs_right (vz dir)) by lra. lra. }
  destruct S as [S1 S2]. destruct (vz_cases S1) as [K EK]. assert (ET : tz = v). { pose proof kAbsorb_pos. apply (Rmult_eq_reg_r (Rabs (vz dir))); lra. }
  unfold in_okz. fold h. fold tz. rewrite ET. fold (q v). split; [lra|]. split; [done|]. split; [done|]. intros P. apply sector_wide; [lra|done|by apply Cs].
Qed.
Lemma enter_outer v u : 0 <= v < u → closed (q v) → rho (q v) = M → (∀ w, v < w <= u → core (q w)) → outer = Some v.
Proof using Hm HZ Hd Hk Hu Hn0.
  pose proof half6 as [H1 H2]. intros Hv (Cz & Cr & Cs) E AFT. assert (N : n ≠ 0). { intros N. destruct (AFT u ltac:(lra)) as (_ & U & _). rewrite (rho_const N) in U, E. lra. }
  destruct (sign6 M v N ltac:(lra)) as (S1 & S2 & _). assert (EV : (v + b) * (v + b) = De M) by (apply Rle_antisym; [assert ((v + b) * (v + b) - De M <= 0) by (apply S1; lra)|assert (0 <= (v + b) * (v + b) - De M) by (apply S2; lra)]; lra).
  destruct (AFT u ltac:(lra)) as (_ & U & _). apply (sign6 M u N) in U; [|lra]. assert (D0 : 0 < De M). { pose proof (Rle_0_sqr (u + b)) as Q. unfold Rsqr in Q. lra. }
  destruct (sqrt_sq (De M) ltac:(lra)) as [Q1 Q2]. apply sq_sign in U; [|lra]. unfold outer. apply circle_some; try done. fold (De M). split; [by left|].
  set (r := R_sqrt.sqrt (De M)) in *. destruct (roots b (De M) r v Q1 Q2 EV) as [X|X]; [exfalso; lra|]. split; [lra|]. split; [pose proof kTolerance_pos; lra|]. intros _. split; [done|]. intros P. apply sector_wide; [|done|by apply Cs]. unfold h in *. lra.
Qed.
Lemma enter_inner v u : 0 <= v < u → closed (q v) → 0 < m → rho (q v) = m → (∀ w, v < w <= u → core (q w)) → inner = Some v.
Proof using Hm HZ Hd Hk Hu Hn0.
  pose proof half6 as [H1 H2]. intros Hv (Cz & Cr & Cs) M0 E AFT. assert (N : n ≠ 0). { intros N. destruct (AFT u ltac:(lra)) as (_ & _ & U & _). specialize (U M0). rewrite (rho_const N) in U, E. lra. }
  destruct (sign6 m v N ltac:(lra)) as (S1 & S2 & _). assert (EV : (v + b) * (v + b) = De m) by (apply Rle_antisym; [assert ((v + b) * (v + b) - De m <= 0) by (apply S1; lra)|assert (0 <= (v + b) * (v + b) - De m) by (apply S2; lra)]; lra).
  assert (D0 : 0 <= De m). { pose proof (Rle_0_sqr (v + b)) as Q. unfold Rsqr in Q. lra. }
  destruct (sqrt_sq (De m) ltac:(lra)) as [Q1 Q2]. unfold inner. apply circle_some; try done. fold (De m). split; [destruct (Rle_lt_or_eq_dec 0 (De m) D0); [by left|right; split; [done|lra]]|].
  set (r := R_sqrt.sqrt (De m)) in *. split.
  - destruct (roots b (De m) r v Q1 Q2 EV) as [X|X]; [done|]. destruct (Rle_lt_or_eq_dec 0 r Q2) as [RP|RP]; [exfalso|lra].
    set (w := v + Rmin r (u - v)). pose proof (Rmin_l r (u - v)). pose proof (Rmin_r r (u - v)). assert (W0 : 0 < Rmin r (u - v)) by (apply Rmin_pos; lra). destruct (AFT w ltac:(unfold w; lra)) as (_ & _ & U & _). specialize (U M0). apply (sign6 m w N) in U; [|lra].
    assert (K : (w + b) * (w + b) - De m < 0) by (apply sq_sign; [done|]; fold r; unfold w; lra). lra.
  - split; [pose proof kTolerance_pos; lra|]. intros _. split; [done|]. intros P. apply sector_wide; [|done|by apply Cs]. unfold h in *. lra.
Qed.
Lemma half_range v : closed (q v) → 0 <= v → d < 2 * PI → rho (q v) ≠ 0 ∧ (m - h) * (m - h) <= rho (q v) * rho (q v) <= (M + h) * (M + h) ∧ Rabs (vz (q v)) <= Z + h.
Proof using Hm Hm' Hax.
  pose proof half6 as [H1 H2]. intros (Cz & Cr & _) V P. split; [|split; [|lra]].
  - destruct Hm' as [E|E]; [|lra]. specialize (Hax P E v V). lra.
  - split; [|apply sqr_le; lra]. destruct Hm' as [E|E].
    + specialize (Hax P E v V). rewrite E. replace ((0 - h) * (0 - h)) with (h * h) by ring. apply sqr_le; lra.
    + apply sqr_le; lra.
Qed.
Lemma start_cand v : 0 <= v → d < 2 * PI → closed (q v) → side s (vx (q v)) (vy (q v)) = 0 → 0 < side s (vx dir) (vy dir) → (pos = true → 0 < ahead s (vx (q v)) (vy (q v))) →
  plane_hit t pos true (cos s) (sin s) (- sin s) (cos s) p dir = Some v.
Proof using Hm Hm' Hax Hs0.
  intros V P C S Dn A. destruct (half_range v C V P) as (_ & R1 & R2). destruct (Hs0 P) as [G _]. apply plane_some. cbv zeta. replace (vx dir * - sin s + vy dir * cos s) with (side s (vx dir) (vy dir)) by (unfold side; ring).
  split; [done|]. split; [apply root_eq; [done|lra|]; unfold q in S; by rewrite side_q in S|]. split; [apply above_tol; [done|apply Rabs_pos]|]. split; [exact R2|]. split; [exact R1|exact A].
Qed.
Lemma end_cand v : 0 <= v → d < 2 * PI → closed (q v) → side (s + d) (vx (q v)) (vy (q v)) = 0 → side (s + d) (vx dir) (vy dir) < 0 → 0 < ahead (s + d) (vx (q v)) (vy (q v)) →
  plane_hit t true true (cos (s + d)) (sin (s + d)) (sin (s + d)) (- cos (s + d)) p dir = Some v.
Proof using Hm Hm' Hax Hs0.
  intros V P C S Dn A. destruct (half_range v C V P) as (_ & R1 & R2). destruct (Hs0 P) as [_ G]. apply plane_some. cbv zeta. replace (vx dir * sin (s + d) + vy dir * - cos (s + d)) with (- side (s + d) (vx dir) (vy dir)) by (unfold side; ring).
  split; [lra|]. split; [apply root_eq; [done|lra|]; unfold q in S; by rewrite side_q in S|]. split; [apply above_tol; [done|apply Rabs_pos]|]. split; [exact R2|]. split; [exact R1|intros _; exact A].
Qed.
Lemma enter_sector v u : 0 <= v < u → closed (q v) → d < 2 * PI → ¬ open_sector s d (vx (q v)) (vy (q v)) → (∀ w, v < w <= u → core (q w)) → in_cand k m M Z s d p dir v.
Proof using Hm HZ Hd Hk Hm' Hax Hs0.
  intros Hv C P NO AFT. pose proof PI_RGT_0 as HPI. destruct (half_range v C ltac:(lra) P) as (R0 & _ & _). pose proof C as (_ & _ & Cs). specialize (Cs P). rewrite by_sides' in Cs by lra. rewrite open_sides in NO by lra.
  assert (SQ : ∀ phi w, side phi (vx (q w)) (vy (q w)) = side phi (vx (q v)) (vy (q v)) + (w - v) * side phi (vx dir) (vy dir)) by (intros phi w; unfold q; rewrite !side_q; ring).
  set (a := side s (vx (q v)) (vy (q v))) in *. set (c := side (s + d) (vx (q v)) (vy (q v))) in *.
  assert (CU : (d <= PI → 0 < side s (vx (q u)) (vy (q u)) ∧ side (s + d) (vx (q u)) (vy (q u)) < 0)). { destruct (AFT u ltac:(lra)) as (_ & _ & _ & U). specialize (U P). rewrite open_sides in U by lra. apply U. }
  assert (FA : a = 0 → c = ahead s (vx (q v)) (vy (q v)) * - sin d). { intros E. unfold c. rewrite (side_on_line s (s + d)) by done. replace (s - (s + d)) with (- d) by ring. by rewrite sin_neg. }
  assert (FC : c = 0 → a = ahead (s + d) (vx (q v)) (vy (q v)) * sin d). { intros E. unfold a. rewrite (side_on_line (s + d) s) by done. by replace (s + d - s) with d by ring. }
  assert (NA : a = 0 → ahead s (vx (q v)) (vy (q v)) ≠ 0) by (intros E; by apply ahead_rho). assert (NC : c = 0 → ahead (s + d) (vx (q v)) (vy (q v)) ≠ 0) by (intros E; by apply ahead_rho).
  destruct (Rle_dec d PI) as [L|L].
  - destruct Cs as [Cs _]. destruct (Cs L) as [A0 C0]. destruct (CU L) as [U1 U2]. rewrite SQ in U1, U2. fold a in U1. fold c in U2.
    assert (T : a = 0 ∨ c = 0). { destruct (Rle_lt_or_eq_dec _ _ A0) as [X|X]; [|by left]. destruct (Rle_lt_or_eq_dec _ _ C0) as [Y|Y]; [|by right]. exfalso. apply NO. split; intros; lra. }
    destruct (Rle_lt_or_eq_dec _ _ L) as [LT|EQ].
    + assert (Sd : 0 < sin d) by (apply sin_gt_0; lra). destruct T as [T|T].
      * right; left. split; [done|]. apply start_cand; try done; try lra.
        -- clear - U1 T Hv. rewrite T in U1. nra.
        -- intros _. specialize (FA T). specialize (NA T). clear - FA NA C0 Sd. revert FA NA. generalize (ahead s (vx (q v)) (vy (q v))). intros x. intros. nra.
      * right; right. split; [done|]. split; [intros K; pose proof (fits_pi k m d Hk K); lra|]. apply end_cand; try done; try lra.
        -- clear - U2 T Hv. rewrite T in U2. nra.
        -- specialize (FC T). specialize (NC T). clear - FC NC A0 Sd. revert FC NC. generalize (ahead (s + d) (vx (q v)) (vy (q v))). intros x. intros. nra.
    + assert (EC : c = - a) by (unfold c, a; rewrite EQ; apply side_flip). assert (EA : a = 0) by lra. rewrite EA in U1. assert (DN : 0 < side s (vx dir) (vy dir)) by (clear - U1 Hv; nra).
      destruct (one_pi (sector_type k)) as [Ek|Ek].
      * right; left. split; [done|]. apply start_cand; try done; [lra|]. unfold pos. rewrite Ek. done.
      * destruct (Rle_dec 0 (ahead s (vx (q v)) (vy (q v)))) as [G|G].
        -- right; left. split; [done|]. apply start_cand; try done; [lra|]. intros _. specialize (NA EA). lra.
        -- right; right. split; [done|]. split; [done|]. apply end_cand; try done; [lra|fold c; lra| |]; rewrite EQ; [rewrite side_flip; lra|rewrite ahead_flip; lra].
  - assert (GT : PI < d) by (by apply Rnot_le_lt). assert (Sd : sin d < 0) by (apply sin_lt_0; [done|lra]). destruct Cs as [_ Cs]. specialize (Cs GT).
    assert (NO' : ¬ (0 < a ∨ c < 0)) by (intros K; apply NO; split; [intros; contradiction|done]). clear NO.
    assert (a <= 0 ∧ 0 <= c) as [A0 C0] by (split; apply Rnot_lt_le; intros Q; apply NO'; [by left|by right]).
    destruct Cs as [A1|C1].
    + assert (EA : a = 0) by lra. specialize (FA EA). specialize (NA EA). assert (G : 0 < ahead s (vx (q v)) (vy (q v))) by (clear - FA NA C0 Sd; revert FA NA; generalize (ahead s (vx (q v)) (vy (q v))); intros; nra).
      right; left. split; [done|]. apply start_cand; try done; [lra|]. assert (CP : 0 < c) by (rewrite FA; apply Rmult_lt_0_compat; lra).
      destruct (near_pos c (side (s + d) (vx dir) (vy dir)) (u - v) CP ltac:(lra)) as (e & He & E). assert (RV : v < v + e <= u) by (clear - He Hv; lra). destruct (AFT (v + e) RV) as (_ & _ & _ & U). specialize (U P). rewrite open_sides in U by lra. destruct U as [_ U]. specialize (U GT). rewrite (SQ s (v + e)), (SQ (s + d) (v + e)) in U. fold a in U. fold c in U. replace (v + e - v) with e in U by ring.
      destruct U as [U|U]; [|exfalso; lra]. rewrite EA in U. clear - U He. nra.
    + assert (EC : c = 0) by lra. specialize (FC EC). specialize (NC EC). assert (G : 0 < ahead (s + d) (vx (q v)) (vy (q v))) by (clear - FC NC A0 Sd; revert FC NC; generalize (ahead (s + d) (vx (q v)) (vy (q v))); intros; nra).
      right; right. split; [done|]. split; [intros K; pose proof (fits_pi k m d Hk K); lra|]. apply end_cand; try done; [lra|]. assert (AP : 0 < - a) by (rewrite FC; assert (0 < ahead (s + d) (vx (q v)) (vy (q v)) * - sin d) by (apply Rmult_lt_0_compat; lra); lra).
      destruct (near_pos (- a) (- side s (vx dir) (vy dir)) (u - v) AP ltac:(lra)) as (e & He & E). assert (RV : v < v + e <= u) by (clear - He Hv; lra). destruct (AFT (v + e) RV) as (_ & _ & _ & U). specialize (U P). rewrite open_sides in U by lra. destruct U as [_ U]. specialize (U GT). rewrite (SQ s (v + e)), (SQ (s + d) (v + e)) in U. fold a in U. fold c in U. replace (v + e - v) with e in U by ring.
      destruct U as [U|U]; [exfalso; lra|]. rewrite EC in U. clear - U He. nra.
Qed.
Lemma in_misses u : 0 <= u < tube_to_in_kernel inf k t p dir → u < inf → ¬ core (q u).
Proof using Hm HZ Hd Hk HM Hm' Hu Hz0 Hn0 Hs0 Hskin Hax Hout.
  intros [U0 UD] UI CU. pose proof half6 as [H1 H2]. pose proof (in_cases inf k m M Z s d Hm HZ Hd Hk HM Hm' p dir) as CASES. cbv zeta in CASES. fold t in CASES. set (D := tube_to_in_kernel inf k t p dir) in *. clearbody D. fold rdotn tz inv b in CASES. fold outer in CASES.
  destruct CASES as [(A & _)|[(_ & A & _)|[(_ & _ & A & E)|[(_ & _ & _ & _ & E)|[(_ & _ & NZ & A & _)|(_ & _ & NZ & NO & L & _ & _)]]]]].
  - exact (done_out u A U0 CU).
  - by apply Hout, deep_core.
  - destruct A as (_ & S & _). destruct (vz_cases S) as [K EK]. destruct CU as (Cz & _). change (vz (q u)) with (vz p + u * vz dir) in Cz. pose proof (abs_cross (vz p) (vz dir) u U0 S) as X. pose proof kAbsorb_pos as KP. assert (u * Rabs (vz dir) < tz * Rabs (vz dir)) by (apply Rmult_lt_compat_r; lra). lra.
  - lra.
  - unfold outer in A. apply circle_some in A; try done. fold (De M) in A. destruct A as ([A|(? & _)] & EX & _); [|done]. destruct (sqrt_sq (De M) ltac:(lra)) as [Q1 Q2]. set (r := R_sqrt.sqrt (De M)) in *. destruct CU as (_ & Cr & _). destruct (Req_dec n 0) as [N|N].
    + destruct (flat_De M N) as [B0 _]. lra.
    + apply (sign6 M u N) in Cr; [|lra]. apply sq_sign in Cr; [|lra]. fold r in Cr. lra.
  - destruct (entry m M Z s d Hm HZ Hd p dir u U0 Hout CU) as (v & Hv & CL & NC & AFT). fold (q v) in CL, NC. fold closed in CL. fold core in NC.
    assert (Lv : ¬ in_cand k m M Z s d p dir v) by (intros X; specialize (L v X); lra).
    destruct CL as (Cz & Cr & Cs). assert (CL : closed (q v)) by (split; done).
    destruct (Rle_lt_or_eq_dec _ _ Cz) as [Kz|Kz]; [|by apply NZ; apply (enter_z v u)].
    destruct Cr as [Cm CM]. destruct (Rle_lt_or_eq_dec _ _ CM) as [KM|KM]; [|assert (X : outer = Some v) by (by apply (enter_outer v u)); specialize (NO v X); lra].
    assert (OM : 0 < m → m < rho (q v)). { intros M0. destruct (Rle_lt_or_eq_dec _ _ Cm) as [|Km]; [done|]. exfalso. apply Lv. left. split; [done|]. apply (enter_inner v u); done. }
    apply NC. split; [done|]. split; [done|]. split; [done|]. intros P. destruct (open_dec s d Hd (vx (q v)) (vy (q v)) P) as [|O]; [done|]. exfalso. apply Lv. by apply (enter_sector v u).
Qed.
Lemma in_reaches : tube_to_in_kernel inf k t p dir < inf → tube_wide m M Z s d kTolerance (q (tube_to_in_kernel inf k t p dir)).
Proof using Hm HZ Hd Hk HM Hm' Hu Hz0 Hn0 Hs0 Hpar Hout.
  intros LT. pose proof half6 as [H1 H2]. pose proof kTolerance_pos as KT. pose proof PI_RGT_0 as HPI. pose proof (in_cases inf k m M Z s d Hm HZ Hd Hk HM Hm' p dir) as CASES. cbv zeta in CASES. fold t in CASES. set (D := tube_to_in_kernel inf k t p dir) in *. clearbody D. fold rdotn tz inv b in CASES. fold outer in CASES.
  assert (WW : ∀ x y, wide_sector h s d x y → wide_sector kTolerance s d x y). { intros x y [A B]. clear - A B H1 H2. split; intros K; [destruct (A K)|destruct (B K)]; lra. }
  destruct CASES as [(_ & A)|[(_ & A & _)|[(_ & _ & A & E)|[(_ & _ & _ & A & E)|[(_ & _ & NZ & A & _)|(_ & _ & NZ & NO & L & _ & X)]]]]].
  - lra.
  - exfalso. by apply Hout, deep_core.
  - unfold in_okz in A. fold h tz in A. fold (q tz) in A. destruct A as (_ & S & Rr & W). rewrite E. split; [rewrite z_at_tz by done; lra|]. split; [lra|]. intros P. apply WW. by apply W.
  - assert (Q0 : q D = p) by (rewrite E; apply v3_eq; unfold q, along, vadd, vscale; cbn; ring). rewrite Q0. destruct A as (Az & Ar & W). fold h in Ar, W. split; [lra|]. split; [destruct Ar as [Ar|[_ Ar]]; lra|]. intros P. apply WW. by apply W.
  - unfold outer in A. apply circle_some in A; try done. fold (De M) in A. destruct A as ([A|(? & _)] & EX & GE & CH); [|done]. destruct (CH eq_refl) as [CHz CHs]. destruct (sqrt_sq (De M) ltac:(lra)) as [Q1 Q2]. set (r := R_sqrt.sqrt (De M)) in *.
    assert (RR : m - kTolerance <= rho (q D) <= M + kTolerance).
    { destruct (Req_dec n 0) as [N|N].
      - rewrite rho_const by done. destruct (flat_De M N) as [B0 ED]. pose proof kTiny_pos as TP. assert (EM : De M * kTiny = M * M - rho p * rho p) by (rewrite ED; field; lra). pose proof (rho_nonneg p) as R0.
        assert (RB : 0 <= r <= 2 * kTolerance) by lra. assert (DB : De M <= 2 * kTolerance * (2 * kTolerance)) by (rewrite <- Q1; apply Rmult_le_compat; lra).
        assert (T1 : 4 * kTiny <= 1) by (unfold kTiny; lra). clearbody r. generalize dependent (De M). intros De'. intros.
        assert (G : 0 <= M * M - rho p * rho p <= kTolerance * kTolerance). { rewrite <- EM. split; [apply Rmult_le_pos; lra|]. clear - DB A TP T1 KT. nra. }
        clear - G HM Hm R0 KT. split; [|nra]. assert (M - kTolerance <= rho p); [|lra]. apply sqr_le; [lra|done|]. nra.
      - assert (S : rho (q D) = M). { destruct (sign6 M D N ltac:(lra)) as (S1 & S2 & _). assert (X0 : (D + b) * (D + b) - De M = 0) by (rewrite EX, <- Q1; ring). apply Rle_antisym; [apply S1|apply S2]; lra. } lra. }
    split; [change (vz (q D)) with (vz p + D * vz dir); lra|]. split; [done|]. intros P. apply WW, CHs, P.
  - destruct X as [X|X]; [lra|]. destruct X as [(M0 & X)|[(P & X)|(P & Ek & X)]].
    + fold rdotn inv in X. fold b in X. apply circle_some in X; try done. fold (De m) in X. destruct X as (DP & EX & GE & CH). destruct (CH eq_refl) as [CHz CHs].
      assert (D0 : 0 <= De m). { destruct DP as [DP|(_ & DP)]; [by apply Rlt_le|]. rewrite DP. apply Rle_refl. } destruct (sqrt_sq (De m) D0) as [Q1 Q2]. set (r := R_sqrt.sqrt (De m)) in *.
      assert (RR : rho (q D) = m).
      { destruct (Req_dec n 0) as [N|N].
        - rewrite rho_const by done. destruct (flat_De m N) as [B0 ED]. pose proof kTiny_pos as TP. assert (EM : De m * kTiny = m * m - rho p * rho p) by (rewrite ED; field; lra). pose proof (rho_nonneg p) as R0. destruct (flat6 N) as (F1 & F2 & F3).
          destruct (Hpar F1 F2) as [G|G].
          + apply Rle_antisym; [|done]. apply sqr_le; [done|lra|]. assert (0 <= De m * kTiny) by (apply Rmult_le_pos; lra). lra.
          + exfalso. assert (ER : D = r) by lra. rewrite ER in CHz. set (zz := Rabs (vz p) + Z) in *. assert (Zn : 0 <= zz) by (unfold zz; pose proof (Rabs_pos (vz p)); lra).
            assert (LR : zz < r). { apply sq_exceeds; [done|done|]. rewrite Q1. apply (Rmult_lt_reg_r kTiny); [done|]. rewrite EM. lra. }
            assert (AB : r <= Rabs (r * vz dir)). { rewrite Rabs_mult, (Rabs_right r) by lra. assert (A1 : Rabs (vz dir) = 1). { assert (Rabs (vz dir) * Rabs (vz dir) = 1) by (rewrite <- Rabs_mult, F3; apply Rabs_right; lra). pose proof (Rabs_pos (vz dir)). clear - H H0. nra. } rewrite A1. lra. }
            pose proof (Rabs_triang (vz p + r * vz dir) (- vz p)) as TR. rewrite Rabs_Ropp in TR. replace (vz p + r * vz dir + - vz p) with (r * vz dir) in TR by ring. unfold zz in LR. lra.
        - destruct (sign6 m D N ltac:(lra)) as (S1 & S2 & _). assert (X0 : (D + b) * (D + b) - De m = 0) by (rewrite EX, <- Q1; ring). apply Rle_antisym; [apply S1|apply S2]; lra. }
      split; [change (vz (q D)) with (vz p + D * vz dir); lra|]. split; [lra|]. intros P. apply WW, CHs, P.
    + destruct (Hs0 P) as [G _]. apply plane_some in X. cbv zeta in X. replace (vx dir * - sin s + vy dir * cos s) with (side s (vx dir) (vy dir)) in X by (unfold side; ring). fold (q D) in X. destruct X as (Dn & EX & _ & Xz & (Xm & XM) & XA). apply root_eq in EX; [|done|lra]. fold h in Xz, Xm, XM.
      assert (S0 : side s (vx (q D)) (vy (q D)) = 0) by (unfold q; rewrite side_q; done). pose proof (rho_nonneg (q D)) as R0.
      split; [lra|]. split; [split|].
      * destruct Hm' as [E|E]; [lra|]. assert (m - h <= rho (q D)); [|lra]. apply sqr_le; lra.
      * assert (rho (q D) <= M + h); [|lra]. apply sqr_le; lra.
      * intros _. split; intros L'; [|left; lra]. split; [lra|]. destruct (Rle_lt_or_eq_dec _ _ L') as [LT'|EQ].
        -- assert (PO : pos = true). { unfold pos. destruct (one_pi (sector_type k)) as [Ek|Ek]; [pose proof (fits_pi k m d Hk Ek); lra|by rewrite one_pi_not]. } specialize (XA PO).
           rewrite (side_on_line s (s + d)) by done. replace (s - (s + d)) with (- d) by ring. rewrite sin_neg. assert (0 < sin d) by (apply sin_gt_0; lra). assert (0 < ahead s (vx (q D)) (vy (q D)) * sin d) by (apply Rmult_lt_0_compat; lra). lra.
        -- rewrite EQ, side_flip. lra.
    + destruct (Hs0 P) as [_ G]. apply plane_some in X. cbv zeta in X. replace (vx dir * sin (s + d) + vy dir * - cos (s + d)) with (- side (s + d) (vx dir) (vy dir)) in X by (unfold side; ring). fold (q D) in X. destruct X as (Dn & EX & _ & Xz & (Xm & XM) & XA). apply root_eq in EX; [|done|lra]. fold h in Xz, Xm, XM. specialize (XA eq_refl).
      assert (S0 : side (s + d) (vx (q D)) (vy (q D)) = 0) by (unfold q; rewrite side_q; done). pose proof (rho_nonneg (q D)) as R0.
      split; [lra|]. split; [split|].
      * destruct Hm' as [E|E]; [lra|]. assert (m - h <= rho (q D)); [|lra]. apply sqr_le; lra.
      * assert (rho (q D) <= M + h); [|lra]. apply sqr_le; lra.
      * intros _. split; intros L'; [|right; lra]. split; [|lra]. rewrite (side_on_line (s + d) s) by done. replace (s + d - s) with d by ring. assert (0 <= sin d) by (apply sin_ge_0; lra). assert (0 <= ahead (s + d) (vx (q D)) (vy (q D)) * sin d) by (apply Rmult_le_pos; lra). lra.
Qed.
Lemma in_ge : - 2 * kTolerance <= inf → (d < 2 * PI → ¬ 0 < side s (vx p) (vy p) < h ∧ ¬ - h < side (s + d) (vx p) (vy p) < 0) → -2 * kTolerance <= tube_to_in_kernel inf k t p dir.
Proof using Hm HZ Hd Hk HM Hm' Hs0 Hout.
  clear Hskin Hz0 Hn0 Hax Hpar Hu. intros HI HS. pose proof half6 as [H1 H2]. pose proof kTolerance_pos as KT. pose proof (in_cases inf k m M Z s d Hm HZ Hd Hk HM Hm' p dir) as CASES. cbv zeta in CASES. fold t in CASES. set (D := tube_to_in_kernel inf k t p dir) in *. clearbody D. fold rdotn tz inv b in CASES. fold outer in CASES.
  destruct CASES as [(_ & A)|[(_ & A & _)|[(_ & _ & A & E)|[(_ & _ & _ & A & E)|[(_ & _ & NZ & A & _)|(_ & _ & NZ & NO & L & _ & X)]]]]].
  - lra.
  - exfalso. by apply Hout, deep_core.
  - destruct A as (A & _). fold tz h in A. lra.
  - lra.
  - unfold outer in A. apply circle_some in A; try done. tauto.
  - destruct X as [X|X]; [lra|]. destruct X as [(M0 & X)|[(P & X)|(P & Ek & X)]].
    + apply circle_some in X; try done. tauto.
    + destruct (Hs0 P) as [G _]. destruct (HS P) as [HS1 _]. apply plane_some in X. cbv zeta in X. replace (vx dir * - sin s + vy dir * cos s) with (side s (vx dir) (vy dir)) in X by (unfold side; ring). destruct X as (Dn & EX & Q & _). apply root_eq in EX; [|done|lra]. rewrite Rabs_right in Q by lra. fold h in Q.
      assert (0 <= D); [|lra]. revert Dn EX Q HS1. generalize (side s (vx dir) (vy dir)) (side s (vx p) (vy p)). clear - H1. intros. assert (r0 <= 0) by lra. nra.
    + destruct (Hs0 P) as [_ G]. destruct (HS P) as [_ HS1]. apply plane_some in X. cbv zeta in X. replace (vx dir * sin (s + d) + vy dir * - cos (s + d)) with (- side (s + d) (vx dir) (vy dir)) in X by (unfold side; ring). destruct X as (Dn & EX & Q & _). apply root_eq in EX; [|done|lra]. rewrite Rabs_right in Q by lra. fold h in Q.
      assert (0 <= D); [|lra]. revert Dn EX Q HS1. generalize (side (s + d) (vx dir) (vy dir)) (side (s + d) (vx p) (vy p)). clear - H1. intros. assert (0 <= r0) by lra. nra.
Qed.
Lemma in_deep_answer : in_deep m M Z s d p → tube_to_in_kernel inf k t p dir = -1.
Proof using Hm HZ Hd Hk HM Hm'.
  clear Hout. pose proof half6 as [H1 H2]. pose proof (rho_nonneg p) as R0. intros A. destruct (in_cases inf k m M Z s d Hm HZ Hd Hk HM Hm' p dir) as [(B & _)|[(_ & _ & E)|[(_ & B & _)|[(_ & B & _)|[(_ & B & _)|(_ & B & _)]]]]]; try (exfalso; by apply B); [|done].
  exfalso. destruct A as (A1 & A2 & _). fold h in A1, A2. destruct B as [(B & _)|(B & _)]; fold h in B; [lra|]. assert (M - h < rho p) by (apply sqr_lt; [lra|done|done]). lra.
Qed.
End In.
