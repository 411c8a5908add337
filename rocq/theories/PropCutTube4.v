(** C90: DistanceToIn of cut tubes from far away, normals on the walls. *)
From Coq Require Import Reals Lra Lia Bool ZArith Psatz.
From stdpp Require Import base list option numbers tactics.
From Verif Require Import Real3 AABBModel BoxModel PlanesModel PlanesProofs TetModel WedgeModel WedgeSpec WedgeProofs WedgeProofs2 TrdModel PolyconeSpec ConeSpec ConeProofs TubeModel TubeSpec TubeProofs PropTube PropTube2 PropTube5 CutTubeModel CutTubeModel2 CutTubeSpec PropCutTube PropCutTube2 PropCutTube3.
Import stdpp.list.
Local Open Scope R_scope.

(** Points up to a hundred times the larger of the outer radius and the half length: the kernel's answer. *)
Theorem C90_to_in_near inf m M Z s d b t p dir : vmag p <= 100 * Rmax M Z → ct_to_in inf (cut_tube inf m M Z s d b t) p dir = ct_to_in_kernel inf (cut_tube inf m M Z s d b t) p dir.
Proof. intros H. unfold ct_to_in. cbv zeta. change (ct_max _) with (Rmax M Z). destruct (rgtb_spec (vmag p) (100 * Rmax M Z)); [lra|]. apply Rplus_0_r. Qed.
Print Assumptions C90_to_in_near.
(** Points farther away: moved along the ray up to that distance, and the move is added to the kernel's answer. *)
Theorem C90_to_in_far inf m M Z s d b t p dir : let far := 100 * Rmax M Z in far < vmag p →
  ct_to_in inf (cut_tube inf m M Z s d b t) p dir = (vmag p - far) + ct_to_in_kernel inf (cut_tube inf m M Z s d b t) (along p dir (vmag p - far)) dir.
Proof. intros far H. unfold ct_to_in. cbv zeta. change (ct_max _) with (Rmax M Z). fold far. destruct (rgtb_spec (vmag p) far); [|lra]. apply Rplus_comm. Qed.
Print Assumptions C90_to_in_far.
(** When the whole solid is nearer than that to the origin, the move passes over none of it. *)
Theorem C90_to_in_move m M Z s d b t p dir : let far := 100 * Rmax M Z in vdot dir dir = 1 → far < vmag p → (∀ q, cut_closed m M Z s d b t q → vmag q < far) →
  ∀ u, 0 <= u <= vmag p - far → ¬ cut_closed m M Z s d b t (along p dir u).
Proof.
  intros far Hu F Sm u U C. specialize (Sm _ C). pose proof (vdist_triangle p (along p dir u) vzero) as T. assert (E1 : vdist p vzero = vmag p) by (unfold vdist; f_equal; apply v3_eq; unfold vsub, vzero; cbn; ring). assert (E2 : vdist (along p dir u) vzero = vmag (along p dir u)) by (unfold vdist; f_equal; apply v3_eq; unfold vsub, vzero; cbn; ring).
  assert (E3 : vdist p (along p dir u) = u). { unfold vdist. replace (vmag _) with (R_sqrt.sqrt (u * u * vdot dir dir)) by (unfold vmag; f_equal; unfold vdot, vsub, along, vadd, vscale; cbn; ring). rewrite Hu, Rmult_1_r. apply sqrt_square. lra. }
  rewrite E1, E2, E3 in T. lra.
Qed.
Print Assumptions C90_to_in_move.
(** Steep parallel lids: the solid reaches the height 200, the radius and the half length are 1. *)
Definition steep : v3 := V3 (159999 / 160001) 0 (800 / 160001).
Definition steep' : v3 := V3 (- 159999 / 160001) 0 (- 800 / 160001).
(** Steep lids reach beyond that distance: the move passes over the solid and DistanceToIn reports a miss. *)
Theorem C90_to_in_far_refuted : ¬ ∀ inf m M Z s d b t p dir u, 1000 < inf → 0 <= m < M → 0 < Z → 0 < d <= 2 * PI → vdot b b = 1 → vdot t t = 1 → vz b < 0 → 0 < vz t →
  (∀ x y, R_sqrt.sqrt (x * x + y * y) <= M → roof b (- Z) x y <= roof t Z x y) → vdot dir dir = 1 → 0 < u → cut_closed m M Z s d b t (along p dir u) → ct_to_in inf (cut_tube inf m M Z s d b t) p dir <= u.
Proof.
  intros H. pose proof PI_RGT_0 as HPI. set (p := V3 (-2) 0 150). set (dir := V3 1 0 0). set (c := cut_tube 10000 0 1 1 0 (2 * PI) steep' steep).
  assert (KT : 0 < kTolerance <= 1 / 1000) by (split; [apply kTolerance_pos|unfold kTolerance; lra]).
  assert (AL : ∀ u, along p dir u = V3 (u - 2) 0 150) by (intros; apply v3_eq; unfold along, p, dir; cbn; ring).
  assert (X : ct_to_in 10000 c p dir <= 5 / 4).
  { apply H; try lra; try (unfold vdot, steep', steep, dir; cbn; lra).
    - intros x y _. unfold roof, steep', steep. cbn [vx vy vz]. lra.
    - rewrite AL. split; [unfold roof, steep', steep; cbn [vx vy vz]; lra|]. rewrite rho_x, Rabs_left by lra. split; [lra|intros; lra]. }
  clear H. assert (VM : 150 <= vmag p). { replace 150 with (R_sqrt.sqrt (150 * 150)) by (apply sqrt_square; lra). unfold vmag. apply sqrt_le_1_alt. unfold vdot, p. cbn. lra. }
  unfold ct_to_in in X. cbv zeta in X. change (ct_max c) with (Rmax 1 1) in X. rewrite Rmax_left in X by lra. destruct (rgtb_spec (vmag p) (100 * 1)) as [_|N]; [|lra]. rewrite AL in X. set (w := vmag p - 100 * 1) in *. assert (W : 50 <= w) by (unfold w; lra). clearbody w.
  assert (D0 : pl_dist (ct_lower c) (V3 (w - 2) 0 150) <= -1) by (unfold c; rewrite dist_lower; unfold over, vdot, steep'; cbn; lra). assert (D1 : 1 <= pl_dist (ct_upper c) (V3 (w - 2) 0 150)) by (unfold c; rewrite dist_upper; unfold over, vdot, steep; cbn; lra).
  assert (CO : cut_inside (ct_lower c) (ct_upper c) (V3 (w - 2) 0 150) = kOutside). { unfold cut_inside. cbv zeta. rewrite (Rabs_left1 (pl_dist (ct_lower c) _)), (Rabs_pos_eq (pl_dist (ct_upper c) _)) by lra. destruct (rltb_spec (- pl_dist (ct_lower c) (V3 (w - 2) 0 150)) kTolerance); [lra|]. destruct (rltb_spec (pl_dist (ct_upper c) (V3 (w - 2) 0 150)) kTolerance); [lra|]. destruct (rltb_spec (pl_dist (ct_upper c) (V3 (w - 2) 0 150)) 0); [lra|]. cbn [orb]. by rewrite andb_false_r. }
  assert (CI : cut_to_in 10000 (ct_lower c) (ct_upper c) (V3 (w - 2) 0 150) dir = - 10000).
  { unfold cut_to_in. cbv zeta. destruct (rgtb_spec (vdot dir (pl_n (ct_lower c))) 0) as [G|_]; [exfalso; unfold vdot, dir, c, steep' in G; cbn in G; lra|]. destruct (rgtb_spec (vdot dir (pl_n (ct_upper c))) 0) as [_|G]; [|exfalso; apply G; unfold vdot, dir, c, steep; cbn; lra].
    unfold plane_to_in. cbv zeta. destruct (rgtb_spec (pl_dist (ct_lower c) (V3 (w - 2) 0 150)) (- kTolerance)); [lra|]. rewrite andb_false_r. apply Rmax_left. lra. }
  unfold ct_to_in_kernel in X. cbv zeta in X. unfold ct_inside in X. rewrite CO, CI in X. rewrite (Rabs_left (- 10000)) in X by lra. destruct (rltb_spec (- - 10000) 10000); [lra|]. cbn [andb negb] in X. lra.
Qed.
Print Assumptions C90_to_in_far_refuted.
(** The normal on the walls, below the planes: the one of the tube. *)
Theorem C90_normal_wall inf kmin m M Z s d b t p : 0 <= m < M → 0 < inf → 0 < d <= 2 * PI → vz b < 0 → 0 < vz t → cut_closed m M Z s d b t p → Rabs (vz p) <= inf → over b (- Z) p ≠ 0 → over t Z p ≠ 0 →
  rho p = M ∨ (0 < m ∧ rho p = m) → ∀ i, near_piece m M inf s d i p → (∀ j, near_piece m M inf s d j p → j = i) → tube_inside UniversalTube (tube_struct m M inf s d) p = kSurface →
  ct_normal inf kmin (cut_tube inf m M Z s d b t) p = (piece_normal s d i p, true).
Proof.
  intros Hm HI Hd Hb Ht ((C1 & C2) & C3 & C4) Vz Nb Nt W i N1 N2 S. apply (over_b_le Z b Hb) in C1. apply (over_t_le Z t Ht) in C2.
  destruct (C85_safety_to_out UniversalTube m M inf s d p Hm HI Hd I) as (_ & V1 & V2). cbv zeta in V1, V2. assert (V0 : 0 <= tube_safety_out UniversalTube (tube_struct m M inf s d) p) by (apply V1; split; [done|split; done]).
  assert (V : tube_safety_out UniversalTube (tube_struct m M inf s d) p = 0).
  { apply Rle_antisym; [|done]. rewrite V2. set (a := Rmin (inf - Rabs (vz p)) (M - rho p)). assert (A : a <= M - rho p) by apply Rmin_r. clearbody a. set (e := if rgtb m 0 then Rmin a (rho p - m) else a). assert (E : e <= 0). { unfold e. destruct (rgtb_spec m 0) as [G|G]; [|destruct W as [W|[W _]]; lra]. pose proof (Rmin_l a (rho p - m)). pose proof (Rmin_r a (rho p - m)). destruct W as [W|[_ W]]; lra. } clearbody e.
    destruct (rltb d PI); [eapply Rle_trans; [apply Rmin_l|done]|]. destruct (rltb d (2 * PI)); [eapply Rle_trans; [apply Rmin_l|done]|done]. }
  unfold ct_normal. cbv zeta. change (ct_tube (cut_tube inf m M Z s d b t)) with (tube_struct m M inf s d). rewrite V, Rabs_R0.
  assert (P : 0 < Rabs (cut_safety_out (ct_lower (cut_tube inf m M Z s d b t)) (ct_upper (cut_tube inf m M Z s d b t)) p)). { apply Rabs_pos_lt. unfold cut_safety_out, plane_safety_out. rewrite dist_lower, dist_upper. unfold Rmin. destruct (Rle_dec _ _); lra. }
  destruct (rltb_spec 0 (Rabs (cut_safety_out (ct_lower (cut_tube inf m M Z s d b t)) (ct_upper (cut_tube inf m M Z s d b t)) p))); [|lra]. apply (C85_normal_one m M inf s d Hm HI Hd inf kmin p i N1 N2 S).
Qed.
Print Assumptions C90_normal_wall.
(** The outer wall of the tube under the tilted lid. *)
Example cut_wall_normal : ct_normal 100 0 (cut_tube 100 0 2 4 0 (2 * PI) flat tilted) (V3 0 2 0) = (V3 0 1 0, true).
Proof.
  pose proof PI_RGT_0. assert (KT : 0 < kTolerance <= 1 / 1000) by (split; [apply kTolerance_pos|unfold kTolerance; lra]). assert (KH : kHalfTolerance = kTolerance / 2) by (unfold kHalfTolerance; lra). destruct tilted_facts as (F1 & F2 & F3 & F4).
  assert (R2 : rho (V3 0 2 0) = 2) by (unfold rho; cbn [vx vy]; replace (0 * 0 + 2 * 2) with (2 * 2) by ring; apply sqrt_square; lra).
  assert (C : cut_closed 0 2 4 0 (2 * PI) flat tilted (V3 0 2 0)) by (split; [unfold roof, flat, tilted; cbn [vx vy vz]; lra|]; rewrite R2; split; [lra|intros; lra]).
  assert (S : tube_inside UniversalTube (tube_struct 0 2 100 0 (2 * PI)) (V3 0 2 0) = kSurface).
  { destruct (C85_inside UniversalTube 0 2 100 0 (2 * PI) (V3 0 2 0) ltac:(lra) ltac:(lra) ltac:(lra) I ltac:(lra) (or_introl eq_refl)) as (T1 & _ & T3 & _). cbv zeta in T1, T3. destruct (tube_inside UniversalTube (tube_struct 0 2 100 0 (2 * PI)) (V3 0 2 0)) eqn:E; [|done|].
    - destruct (T1 eq_refl) as (_ & T & _). rewrite R2 in T. lra.
    - exfalso. apply (T3 eq_refl). split; [cbn [vz]; rewrite Rabs_R0; lra|]. rewrite R2. split; [lra|intros; lra]. }
  rewrite (C90_normal_wall 100 0 0 2 4 0 (2 * PI) flat tilted (V3 0 2 0)) with (i := 5%nat); try lra; try done.
  - cbn [piece_normal]. rewrite R2. do 2 f_equal; cbn; field.
  - cbn [vz]. rewrite Rabs_R0. lra.
  - unfold over, vdot, flat. cbn. lra.
  - unfold over, vdot, tilted. cbn. lra.
  - cbn [near_piece vz]. rewrite R2, Rabs_R0. split; [lra|]. rewrite Rminus_eq_0, Rabs_R0. lra.
  - intros [|[|[|[|[|[|j]]]]]] N; cbn [near_piece vz] in N; try done; try (destruct N; lra).
    + destruct N as [_ N]. rewrite Rabs_left in N; lra.
    + destruct N as [_ N]. rewrite Rabs_pos_eq in N; lra.
Qed.
