(** C85: rays and tubes. *)
From Coq Require Import Reals Lra Lia Bool ZArith Psatz.
From stdpp Require Import base list option numbers tactics.
From Verif Require Import Real3 AABBModel BoxModel BoxProofs PlanesModel PlanesProofs ConeModel ConeSpec ConeProofs WedgeModel WedgeSpec WedgeProofs WedgeProofs2 TubeModel TubeSpec TubeProofs TubeProofs2 TubeProofs3 TubeProofs4 TubeProofs5 TubeProofs6.
Import stdpp.list.
Local Open Scope R_scope.

(** A number the kernels divide by: zero, or not so small that the guard of the division changes it. *)
Definition sound (x : R) : Prop := x = 0 ∨ kAbsorb <= Rabs x.
(** DistanceToOut from points clearly outside. *)
Theorem C85_to_out_outside inf k m M Z s d p dir : 0 <= m < M → 0 < Z → 0 < d <= 2 * PI → tube_fits k m d →
  Z + kHalfTolerance < Rabs (vz p) ∨ M + kTolerance < rho p ∨ (2 * kTolerance <= m ∧ rho p < m - 2 * kTolerance) ∨
    (d < 2 * PI ∧ ¬ sector s d (vx p) (vy p) ∧ ¬ near_line kTolerance s (vx p) (vy p) ∧ ¬ near_line kTolerance (s + d) (vx p) (vy p)) →
  tube_to_out inf k (tube_struct m M Z s d) p dir = -1.
Proof.
  intros Hm HZ Hd Hk H. pose proof kTolerance_pos as KT. pose proof (rho_nonneg p) as R0. rewrite tube_struct_eq by tauto. apply to_out_far; try done.
  destruct H as [H|[H|[(M0 & H)|(P & H & N1 & N2)]]]; [by left|right; left|right; right; left|right; right; right].
  - assert ((M + kTolerance) * (M + kTolerance) < rho p * rho p) by (apply sqr_lt; lra). nra.
  - split; [lra|]. assert (rho p * rho p < (m - 2 * kTolerance) * (m - 2 * kTolerance)) by (apply sqr_lt; lra). nra.
  - split; [done|]. split; [done|]. intros [K|K]; contradiction.
Qed.
Print Assumptions C85_to_out_outside.
(** DistanceToOut from points of the solid and its border: a distance that is not negative, along which the ray stays, and after
    which it leaves.  Needed: denominators that are zero or not tiny ([sound]); from less than two tolerances outside of the hole,
    a direction that does not lead away from the axis; along z, a point not on the outer wall; for a sector wider than half a turn,
    a start that is not just outside of the plane of a side and a ray not through the axis; for the kernels of half a turn, the
    normal they use (whose y is its x) facing the ray as the plane does. *)
Theorem C85_to_out inf k m M Z s d p dir : 0 <= m < M → 0 < Z → 0 < d <= 2 * PI → tube_fits k m d → tube_closed m M Z s d p →
  vdot dir dir = 1 → sound (vz dir) → sound (1 - vz dir * vz dir) → (d < 2 * PI → sound (side s (vx dir) (vy dir)) ∧ sound (side (s + d) (vx dir) (vy dir))) →
  (0 < m → m + 2 * kTolerance < rho p ∨ vx dir * vx p + vy dir * vy p <= 0) →
  (vx dir = 0 → vy dir = 0 → 4 * Z * Z * kTiny < M * M - rho p * rho p) →
  (PI < d < 2 * PI → (0 <= side s (vx p) (vy p) ∨ side s (vx p) (vy p) <= - kHalfTolerance) ∧ (side (s + d) (vx p) (vy p) <= 0 ∨ kHalfTolerance <= side (s + d) (vx p) (vy p)) ∧
     (m = 0 → ∀ u, rho (along p dir u) ≠ 0)) →
  (sector_type k = kOnePi → sin (s + d) * (vx dir + vy dir) < 0 ↔ 0 < side (s + d) (vx dir) (vy dir)) →
  2 ^ 24 * M + 2 * Z < inf →
  let D := tube_to_out inf k (tube_struct m M Z s d) p dir in
  0 <= D < inf ∧ (∀ u, 0 <= u <= D → tube_closed m M Z s d (along p dir u)) ∧ (∀ e, 0 < e → ∃ u, D < u < D + e ∧ ¬ tube_closed m M Z s d (along p dir u)).
Proof.
  intros Hm HZ Hd Hk HC Hu Hz Hn Hs Ht Hp Hb Hpi HI. rewrite tube_struct_eq by tauto. cbv zeta. split; [|split].
  - split; [by apply out_nonneg|by apply out_finite].
  - intros u U. by apply (out_stays inf k).
  - intros e E. by apply out_leaves.
Qed.
Print Assumptions C85_to_out.
(** From (2, 0, 0) along x out of the pipe with radii 1 and 3. *)
Lemma pipe_dir : vdot (V3 1 0 0) (V3 1 0 0) = 1 ∧ sound (vz (V3 1 0 0)) ∧ sound (1 - vz (V3 1 0 0) * vz (V3 1 0 0)).
Proof.
  assert (K : kAbsorb <= 1) by (unfold kAbsorb; rewrite <- Rinv_1; apply Rinv_le_contravar; lra). unfold vdot, sound; cbn [vx vy vz]. split; [lra|]. split; [by left|]. right. replace (1 - 0 * 0) with 1 by ring. rewrite Rabs_R1. done.
Qed.
Lemma axis_rho a b : 0 <= a → rho (V3 a 0 b) = a.
Proof. intros Ha. unfold rho; cbn [vx vy]. replace (a * a + 0 * 0) with (a * a) by ring. by apply sqrt_square. Qed.
Lemma along_x a u : along (V3 a 0 0) (V3 1 0 0) u = V3 (a + u) 0 0.
Proof. apply v3_eq; unfold along, vadd, vscale; cbn; ring. Qed.
Example out_of_pipe : tube_to_out (2 ^ 30) UniversalTube (tube_struct 1 3 2 0 (2 * PI)) (V3 2 0 0) (V3 1 0 0) = 1.
Proof.
  pose proof PI_RGT_0. destruct pipe_dir as (P1 & P2 & P3). assert (K : kTolerance <= 1 / 1000) by (unfold kTolerance; lra). pose proof kTiny_pos. assert (T : kTiny <= 1 / 1000) by (unfold kTiny; lra).
  destruct (C85_to_out (2 ^ 30) UniversalTube 1 3 2 0 (2 * PI) (V3 2 0 0) (V3 1 0 0)) as (A & B & C); try done; try lra.
  - split; [cbn [vz]; rewrite Rabs_R0; lra|]. rewrite axis_rho by lra. split; [lra|intros; lra].
  - intros _. left. rewrite axis_rho by lra. lra.
  - cbn [vx]. intros. lra.
  - cbv zeta in A, B, C. set (D := tube_to_out _ _ _ _ _) in *. clearbody D. apply Rle_antisym.
    + destruct (B D ltac:(lra)) as (_ & (_ & B1) & _). rewrite along_x, axis_rho in B1 by lra. lra.
    + apply Rnot_lt_le. intros L. destruct (C (1 - D) ltac:(lra)) as (u & U & N). apply N. rewrite along_x. split; [cbn [vz]; rewrite Rabs_R0; lra|]. rewrite axis_rho by lra. split; [lra|intros; lra].
Qed.
(** Where DistanceToIn starts to look: points farther away than a hundred times the size are moved up to that distance. *)
Definition ray_move (M Z : R) (p : v3) : R := if rgtb (vmag p) (100 * Rmax M Z) then vmag p - 100 * Rmax M Z else 0.
Lemma moved_far M Z p dir v : 0 < M → 0 < Z → vdot dir dir = 1 → 0 <= v <= ray_move M Z p → 0 < v → ∀ m s d, ¬ tube_closed m M Z s d (along p dir v).
Proof.
  intros HM HZ Hu Hv V0 m s d (Cz & Cr & _). unfold ray_move in Hv. destruct (rgtb_spec (vmag p) (100 * Rmax M Z)) as [F|F]; [|lra]. pose proof (Rmax_l M Z) as M1. pose proof (Rmax_r M Z) as M2. set (X := Rmax M Z) in *. clearbody X.
  assert (E : vmag (along p dir v) * vmag (along p dir v) <= 2 * (X * X)).
  { unfold vmag. rewrite sqrt_sqrt; [|unfold vdot; nra]. pose proof (r2_rho (along p dir v)) as R. pose proof (rho_nonneg (along p dir v)) as R0. apply abs_le in Cz.
    assert (vdot (along p dir v) (along p dir v) = rho (along p dir v) * rho (along p dir v) + vz (along p dir v) * vz (along p dir v)) as -> by (unfold vdot; lra). nra. }
  pose proof (vdist_triangle p (along p dir v) vzero) as T. assert (E1 : vdist p vzero = vmag p) by (unfold vdist; f_equal; apply v3_eq; unfold vsub, vzero; cbn; ring). assert (E2 : vdist (along p dir v) vzero = vmag (along p dir v)) by (unfold vdist; f_equal; apply v3_eq; unfold vsub, vzero; cbn; ring).
  assert (E3 : vdist p (along p dir v) = v). { unfold vdist. replace (vmag _) with (R_sqrt.sqrt (v * v * vdot dir dir)) by (unfold vmag; f_equal; unfold vdot, vsub, along, vadd, vscale; cbn; ring). rewrite Hu, Rmult_1_r. apply sqrt_square. lra. }
  rewrite E1, E2, E3 in T. assert (G : 100 * X <= vmag (along p dir v)) by lra. nra.
Qed.
Lemma to_in_moved inf k m M Z s d p dir : tube_to_in inf k (tb m M Z s d) p dir = tube_to_in_kernel inf k (tb m M Z s d) (along p dir (ray_move M Z p)) dir + ray_move M Z p.
Proof.
  unfold tube_to_in, ray_move. cbv zeta. change (tb_max (tb m M Z s d)) with (Rmax M Z). destruct (rgtb _ _); [done|]. f_equal. f_equal. apply v3_eq; unfold along, vadd, vscale; cbn; ring.
Qed.
(** DistanceToIn: no point of the inside is passed over, and a finite answer leads to the tube thickened by a tolerance.  Asked of
    the point where the kernel starts (p itself, or moved): not inside; not less than half a tolerance inside of the outer
    wall and moving outwards.  Asked of the ray: denominators zero or not tiny; not through the axis of a cut tube without hole;
    not along z within the hole so close to the inner wall that the guard of the division shows. *)
Theorem C85_to_in inf k m M Z s d p dir : 0 <= m < M → 0 < Z → 0 < d <= 2 * PI → tube_fits k m d → kTolerance <= M → m = 0 ∨ kTolerance <= m →
  vdot dir dir = 1 → sound (vz dir) → sound (1 - vz dir * vz dir) → (d < 2 * PI → sound (side s (vx dir) (vy dir)) ∧ sound (side (s + d) (vx dir) (vy dir))) →
  let p' := along p dir (ray_move M Z p) in
  ¬ tube_core m M Z s d p' → ¬ (M - kHalfTolerance < rho p' < M ∧ 0 <= vx p' * vx dir + vy p' * vy dir) →
  (d < 2 * PI → m = 0 → ∀ u, 0 <= u → kHalfTolerance <= rho (along p' dir u)) →
  (vx dir = 0 → vy dir = 0 → m <= rho p' ∨ rho p' * rho p' + (Rabs (vz p') + Z) * (Rabs (vz p') + Z) * kTiny < m * m) →
  let D := tube_to_in inf k (tube_struct m M Z s d) p dir in
  (∀ u, 0 <= u < D → u < inf → u ≠ 0 → ¬ tube_core m M Z s d (along p dir u)) ∧
  (D < inf → tube_wide m M Z s d kTolerance (along p dir D)) ∧
  (-2 * kTolerance <= inf → (d < 2 * PI → ¬ 0 < side s (vx p') (vy p') < kHalfTolerance ∧ ¬ - kHalfTolerance < side (s + d) (vx p') (vy p') < 0) → -2 * kTolerance <= D).
Proof.
  intros Hm HZ Hd Hk HM Hm' Hu Hz Hn Hs p' Hout Hskin Hax Hpar. cbv zeta. rewrite tube_struct_eq by tauto. rewrite to_in_moved. fold p'. set (mv := ray_move M Z p) in *.
  assert (MV : 0 <= mv) by (unfold mv, ray_move; destruct (rgtb_spec (vmag p) (100 * Rmax M Z)); lra).
  assert (AL : ∀ u, along p dir (u + mv) = along p' dir u) by (intros u; apply v3_eq; unfold p', along, vadd, vscale; cbn; ring).
  split; [|split].
  - intros u [U1 U2] UI U0 C. destruct (Rle_dec u mv) as [L|L].
    + apply (moved_far M Z p dir u ltac:(lra) HZ Hu ltac:(fold mv; lra) ltac:(lra) m s d). destruct C as (C1 & C2 & C3 & C4). split; [lra|]. split; [split; [|lra]; destruct (Rle_lt_or_eq_dec 0 m ltac:(lra)) as [W|W]; [specialize (C3 W); lra|rewrite <- W; apply rho_nonneg]|]. intros P. apply open_closed. by apply C4.
    + apply (in_misses inf k m M Z s d Hm HZ Hd Hk HM Hm' p' dir Hu Hz Hn Hs Hskin Hax Hout (u - mv)); [lra|lra|]. rewrite <- AL. by replace (u - mv + mv) with u by ring.
  - intros L. rewrite AL. apply in_reaches; try done. lra.
  - intros HI HS. assert (-2 * kTolerance <= tube_to_in_kernel inf k (tb m M Z s d) p' dir); [|lra]. by apply in_ge.
Qed.
Print Assumptions C85_to_in.
(** From points deeper inside than half a tolerance the answer is -1. *)
Theorem C85_to_in_inside inf k m M Z s d p dir : 0 <= m < M → 0 < Z → 0 < d <= 2 * PI → tube_fits k m d → kTolerance <= M → m = 0 ∨ kTolerance <= m → vmag p <= 100 * Rmax M Z →
  Rabs (vz p) < Z - kHalfTolerance → rho p < M - kHalfTolerance → (0 < m → m + kHalfTolerance < rho p) →
  (d < 2 * PI → (d <= PI → kHalfTolerance <= side s (vx p) (vy p) ∧ side (s + d) (vx p) (vy p) <= - kHalfTolerance) ∧ (PI < d → kHalfTolerance <= side s (vx p) (vy p) ∨ side (s + d) (vx p) (vy p) <= - kHalfTolerance)) →
  tube_to_in inf k (tube_struct m M Z s d) p dir = -1.
Proof.
  intros Hm HZ Hd Hk HM Hm' HF A B C F. rewrite tube_struct_eq by tauto. rewrite to_in_moved. assert (E : ray_move M Z p = 0) by (unfold ray_move; destruct (rgtb_spec (vmag p) (100 * Rmax M Z)); [lra|done]). rewrite E. replace (along p dir 0) with p by (apply v3_eq; unfold along, vadd, vscale; cbn; ring).
  rewrite (in_deep_answer inf k m M Z s d); try done. lra.
Qed.
Print Assumptions C85_to_in_inside.
Example into_pipe : tube_to_in (2 ^ 30) UniversalTube (tube_struct 1 3 2 0 (2 * PI)) (V3 5 0 0) (V3 (-1) 0 0) = 2.
Proof.
  pose proof PI_RGT_0. assert (KA : kAbsorb <= 1) by (unfold kAbsorb; rewrite <- Rinv_1; apply Rinv_le_contravar; lra). assert (K : kTolerance <= 1 / 1000) by (unfold kTolerance; lra). pose proof kTolerance_pos. assert (HH : 2 * kHalfTolerance = kTolerance) by (unfold kHalfTolerance; field).
  rewrite tube_struct_eq by lra. rewrite to_in_moved. assert (E : ray_move 3 2 (V3 5 0 0) = 0).
  { unfold ray_move. assert (EM : vmag (V3 5 0 0) = 5). { unfold vmag, vdot; cbn [vx vy vz]. replace (5 * 5 + 0 * 0 + 0 * 0) with (5 * 5) by ring. apply sqrt_square. lra. } rewrite EM. rewrite Rmax_left by lra. destruct (rgtb_spec 5 (100 * 3)); [lra|done]. }
  rewrite E. replace (along (V3 5 0 0) (V3 (-1) 0 0) 0) with (V3 5 0 0) by (apply v3_eq; unfold along, vadd, vscale; cbn; ring). rewrite Rplus_0_r.
  assert (AX : ∀ u, u <= 5 → rho (along (V3 5 0 0) (V3 (-1) 0 0) u) = 5 - u). { intros u U. replace (along (V3 5 0 0) (V3 (-1) 0 0) u) with (V3 (5 - u) 0 0) by (apply v3_eq; unfold along, vadd, vscale; cbn; ring). apply axis_rho. lra. }
  assert (NB : nz (1 - 0 * 0) = 1). { replace (1 - 0 * 0) with 1 by ring. apply nz_large. rewrite Rabs_R1. done. }
  destruct (in_cases (2 ^ 30) UniversalTube 1 3 2 0 (2 * PI) ltac:(lra) ltac:(lra) ltac:(lra) I ltac:(lra) ltac:(lra) (V3 5 0 0) (V3 (-1) 0 0)) as [(A & _)|[(_ & A & _)|[(_ & _ & A & _)|[(_ & _ & _ & A & _)|[(_ & _ & _ & A & _)|(_ & _ & _ & A & _)]]]]].
  - exfalso. destruct A as [(A & _)|(_ & A)]; cbn [vx vy vz] in A; [rewrite Rabs_R0 in A|]; lra.
  - exfalso. destruct A as (_ & A & _). rewrite axis_rho in A; lra.
  - exfalso. destruct A as (_ & A & _). cbn [vz] in A. lra.
  - exfalso. destruct A as (_ & A & _). rewrite axis_rho in A by lra. lra.
  - apply circle_some in A; [|lra|lra|lra|done]. destruct A as (_ & -> & _). cbn [vx vy vz]. rewrite NB, axis_rho by lra.
    replace (1 / 1 * (5 * -1 + 0 * 0) * (1 / 1 * (5 * -1 + 0 * 0)) - 1 / 1 * (5 * 5 - 3 * 3)) with (3 * 3) by field. rewrite sqrt_square by lra. field.
  - exfalso. specialize (A 2). assert (C : 2 ^ 30 <= 2); [|lra]. apply A. apply circle_some; [lra|lra|lra|done|]. cbn [vx vy vz]. rewrite NB, axis_rho by lra.
    replace (1 / 1 * (5 * -1 + 0 * 0) * (1 / 1 * (5 * -1 + 0 * 0)) - 1 / 1 * (5 * 5 - 3 * 3)) with (3 * 3) by field. rewrite sqrt_square by lra. split; [left; lra|]. split; [field|]. split; [lra|]. intros _. rewrite Rmult_0_r, Rplus_0_l, Rabs_R0. split; [lra|intros; lra].
Qed.
