(** C86: elliptical tubes: ray distances. *)
From Coq Require Import Reals Lra Lia Bool ZArith Psatz.
From stdpp Require Import base list option numbers tactics.
From Verif Require Import Real3 AABBModel AABBProofs BoxModel BoxProofs PlanesModel TetModel ConeModel ConeSpec ConeProofs EllTubeModel EllTubeSpec EllTubeProofs EllTubeProofs2 EllTubeProofs3 EllTubeProofs4.
Import stdpp.list.
Local Open Scope R_scope.

Lemma outside_eq t p : rgtb (Rmax (et_distR t p) (et_distZ t p)) kHalfTolerance = negb (et_contains t p).
Proof. unfold et_contains, et_kernel. cbn [snd]. by rewrite negb_involutive. Qed.
(** DistanceToOut from a point of the solid is where the ray leaves it, for directions along the axis or clearly off it. *)
Theorem C86_to_out perimeter X Y Z inf p d : 2 * kTolerance <= X → 2 * kTolerance <= Y → 0 <= Z → vdot d d = 1 → 2 * R_sqrt.sqrt (X * X + Y * Y + Z * Z) <= inf → slant X Y d = 0 ∨ kEpsilon <= slant X Y d →
  ell_tube X Y Z p → leaves (ell_tube X Y Z) p d (et_to_out inf (mk_elltube perimeter X Y Z) p d).
Proof. intros. by apply to_out_spec. Qed.
Print Assumptions C86_to_out.
(** From a point that is not contained the answer is -1. *)
Theorem C86_to_out_outside perimeter X Y Z inf p d : 2 * kTolerance <= X → 2 * kTolerance <= Y → ¬ ell_moved X Y Z kHalfTolerance p → et_to_out inf (mk_elltube perimeter X Y Z) p d = -1.
Proof.
  intros HX HY N. rewrite <- (contains_moved X Y Z HX HY perimeter p) in N. unfold et_to_out. rewrite outside_eq. destruct (et_contains (mk_elltube perimeter X Y Z) p); [by destruct N|]. done.
Qed.
Print Assumptions C86_to_out_outside.
(** DistanceToIn is where the line enters the solid, to stay there for half a tolerance at least; it is positive off the solid.
    kInfLength is given only when the way ahead never gets deeper than the tolerance, or the line has less than half a tolerance in the solid. *)
Theorem C86_to_in perimeter X Y Z inf p d : 2 * kTolerance <= X → 2 * kTolerance <= Y → kHalfTolerance <= 2 * Z → vdot d d = 1 → slant X Y d = 0 ∨ kEpsilon <= slant X Y d →
  vz d = 0 ∨ kAbsorb <= Rabs (vz d) → (vz d = 0 → 2 * vmag p + R_sqrt.sqrt (X * X + Y * Y + Z * Z) <= kHalfTolerance / kTiny) →
  let s := et_to_in inf (mk_elltube perimeter X Y Z) p d in
  (enters (ell_tube X Y Z) kHalfTolerance p d s ∧ (¬ ell_tube X Y Z p → 0 < s)) ∨
  (s = inf ∧ ((∀ u, 0 <= u → shallow X Y Z (along p d u)) ∨ (∀ u u', ell_tube X Y Z (along p d u) → ell_tube X Y Z (along p d u') → Rabs (u - u') < kHalfTolerance))).
Proof. intros. by apply to_in_spec. Qed.
Print Assumptions C86_to_in.
(** A ray that does get deep and stays long enough is not missed. *)
Theorem C86_to_in_hit perimeter X Y Z inf p d u u' : 2 * kTolerance <= X → 2 * kTolerance <= Y → kHalfTolerance <= 2 * Z → vdot d d = 1 → slant X Y d = 0 ∨ kEpsilon <= slant X Y d →
  vz d = 0 ∨ kAbsorb <= Rabs (vz d) → (vz d = 0 → 2 * vmag p + R_sqrt.sqrt (X * X + Y * Y + Z * Z) <= kHalfTolerance / kTiny) →
  0 <= u → ¬ shallow X Y Z (along p d u) → ell_tube X Y Z (along p d u') → kHalfTolerance <= Rabs (u - u') →
  enters (ell_tube X Y Z) kHalfTolerance p d (et_to_in inf (mk_elltube perimeter X Y Z) p d).
Proof.
  intros HX HY HZ D1 D2 D3 D4 U0 SH S' L. destruct (to_in_spec X Y Z HX HY HZ perimeter inf p d D1 D2 D3 D4) as [[E _]|[_ [S|S]]]; [done|by destruct (SH (S u U0))|]. assert (Su : ell_tube X Y Z (along p d u)).
  { destruct (Rle_dec (Rabs (vz (along p d u))) Z) as [A|A]; [destruct (Rle_dec (ell X Y (along p d u)) 1) as [B|B]; [by split|]|]; exfalso; apply SH, (not_solid_shallow X Y Z HX HY); intros [? ?]; lra. }
  specialize (S u u' Su S'). lra.
Qed.
Print Assumptions C86_to_in_hit.
Lemma tol_tiny : 0 < kTolerance <= / 1000.
Proof. unfold kTolerance. lra. Qed.
Lemma eps_tiny : 0 < kEpsilon <= / 1000.
Proof. unfold kEpsilon. lra. Qed.
(** Along x through the tube with the half axes 2 and 1: out at 2 from the middle; in at 3 from x = -5. *)
Example rays_wide perimeter inf : 100 <= inf → et_to_out inf (mk_elltube perimeter 2 1 3) vzero (V3 1 0 0) = 2 ∧ et_to_in inf (mk_elltube perimeter 2 1 3) (V3 (-5) 0 0) (V3 1 0 0) = 3.
Proof.
  intros HI. pose proof tol_tiny as T. pose proof eps_tiny as EP. assert (H2 : 2 * kTolerance <= 2) by lra. assert (H1 : 2 * kTolerance <= 1) by lra. assert (MIN : Rmin 2 1 = 1) by (rewrite Rmin_right; lra). assert (SL : slant 2 1 (V3 1 0 0) = 1 / 4) by (unfold slant; cbn [vx vy]; rewrite MIN; field). assert (DD : vdot (V3 1 0 0) (V3 1 0 0) = 1) by (unfold vdot; cbn [vx vy vz]; ring).
  assert (RS : R_sqrt.sqrt (2 * 2 + 1 * 1 + 3 * 3) <= 4). { apply Rle_trans with (R_sqrt.sqrt (4 * 4)); [apply sqrt_le_1_alt; lra|rewrite sqrt_square; lra]. }
  assert (EX : ∀ x, ell 2 1 (V3 x 0 0) = Rabs x / 2). { intros x. unfold ell. cbn [vx vy]. replace (x / 2 * (x / 2) + 0 / 1 * (0 / 1)) with (Rabs x / 2 * (Rabs x / 2)). - apply sqrt_square. pose proof (Rabs_pos x). lra. - transitivity (Rabs x * Rabs x / 4); [field|]. rewrite <- Rabs_mult, Rabs_pos_eq by apply Rle_0_sqr. field. }
  assert (IN : ∀ x, ell_tube 2 1 3 (V3 x 0 0) ↔ -2 <= x <= 2). { intros x. unfold ell_tube. rewrite EX. cbn [vz]. rewrite Rabs_R0. pose proof (abs_le x 2) as K. split; [intros [_ V]; assert (W : Rabs x <= 2) by lra; apply K in W; lra|]. intros V. assert (W : Rabs x <= 2) by (apply K; lra). lra. }
  assert (AL : ∀ a u, along (V3 a 0 0) (V3 1 0 0) u = V3 (a + u) 0 0) by (intros; unfold along; apply v3_eq; cbn; ring).
  split.
  - assert (L : leaves (ell_tube 2 1 3) vzero (V3 1 0 0) (et_to_out inf (mk_elltube perimeter 2 1 3) vzero (V3 1 0 0))). { apply to_out_spec; [done|done|lra|done|lra|right; rewrite SL; lra|]. apply (IN 0). lra. } set (s := et_to_out _ _ _ _) in *. change vzero with (V3 0 0 0) in L. destruct L as (S0 & A & B).
    assert (s <= 2). { specialize (A s ltac:(lra)). rewrite AL, IN in A. lra. } assert (¬ s < 2). { intros L2. specialize (B 2 ltac:(lra)). apply B. rewrite AL, IN. lra. } lra.
  - assert (L : enters (ell_tube 2 1 3) kHalfTolerance (V3 (-5) 0 0) (V3 1 0 0) (et_to_in inf (mk_elltube perimeter 2 1 3) (V3 (-5) 0 0) (V3 1 0 0))).
    { apply C86_to_in_hit with 5 4; [done|done|unfold kHalfTolerance; lra|done|right; rewrite SL; lra|by left| |lra| |rewrite AL, IN; lra|rewrite Rabs_pos_eq; unfold kHalfTolerance; lra].
      - intros _. assert (VM : vmag (V3 (-5) 0 0) = 5). { unfold vmag, vdot. cbn [vx vy vz]. replace (-5 * -5 + 0 * 0 + 0 * 0) with (5 * 5) by ring. apply sqrt_square. lra. } rewrite VM. apply Rle_trans with 14; [lra|]. unfold kHalfTolerance, kTolerance, kTiny, Rdiv. lra.
      - rewrite AL. replace (-5 + 5) with 0 by ring. unfold shallow. rewrite EX, MIN. cbn [vz]. rewrite !Rabs_R0. unfold kHalfTolerance. lra. }
    set (s := et_to_in _ _ _ _) in *. assert (HT : 0 < kHalfTolerance) by (unfold kHalfTolerance; lra). destruct L as (A & B). assert (3 <= s). { specialize (A s ltac:(lra)). rewrite AL, IN in A. lra. } assert (¬ 3 < s). { intros L2. apply (B 3 L2). rewrite AL, IN. lra. } lra.
Qed.
(** Without the side condition on the direction DistanceToOut is wrong: a direction off the axis by less than 2^-26 counts as parallel to it, and in a long tube the ray has left through the side long before. *)
Theorem C86_to_out_parallel_refuted perimeter inf : 2 ^ 32 <= inf →
  ¬ (∀ X Y Z p d, 2 * kTolerance <= X → 2 * kTolerance <= Y → 2 * kTolerance <= Z → vdot d d = 1 → 2 * R_sqrt.sqrt (X * X + Y * Y + Z * Z) <= inf →
     ell_tube X Y Z p → leaves (ell_tube X Y Z) p d (et_to_out inf (mk_elltube perimeter X Y Z) p d)).
Proof.
  intros HI H. pose proof tol_tiny as T. set (N := 2 ^ 56). assert (HN : N = 72057594037927936) by (unfold N; lra). set (a := 2 ^ 29 / (N + 1)). set (b := (N - 1) / (N + 1)). assert (H1 : 2 * kTolerance <= 1) by lra. set (Z := 2 ^ 30). assert (HZ : Z = 1073741824) by (unfold Z; lra).
  assert (A0 : a = 536870912 * / (N + 1)) by (unfold a, Rdiv; f_equal; lra). assert (B1 : / 2 < b < 1). { unfold b. split; apply Rmult_lt_reg_r with (N + 1); try lra; replace ((N - 1) / (N + 1) * (N + 1)) with (N - 1) by (field; lra); lra. }
  assert (DD : vdot (V3 a 0 b) (V3 a 0 b) = 1). { unfold vdot. cbn [vx vy vz]. rewrite A0. unfold b. rewrite HN. field. }
  assert (SOL : ell_tube 1 1 Z vzero). { split; [cbn [vz vzero]; rewrite Rabs_R0; lra|]. unfold ell. cbn [vx vy vzero]. replace (0 / 1 * (0 / 1) + 0 / 1 * (0 / 1)) with 0 by field. rewrite sqrt_0. lra. }
  assert (RS : 2 * R_sqrt.sqrt (1 * 1 + 1 * 1 + Z * Z) <= inf). { assert (R_sqrt.sqrt (1 * 1 + 1 * 1 + Z * Z) <= 2 * Z). { apply Rle_trans with (R_sqrt.sqrt ((2 * Z) * (2 * Z))); [apply sqrt_le_1_alt; nra|rewrite sqrt_square; lra]. } lra. }
  destruct (H 1 1 Z vzero (V3 a 0 b) H1 H1 ltac:(lra) DD RS SOL) as (_ & IN & _). set (s := et_to_out inf (mk_elltube perimeter 1 1 Z) vzero (V3 a 0 b)) in *.
  assert (S : Z <= s).
  { unfold s, et_to_out. rewrite outside_eq, solid_contains, slant_A by done. assert (SL : slant 1 1 (V3 a 0 b) < kEpsilon). { unfold slant. cbn [vx vy]. rewrite Rmin_left by lra. replace (1 / 1 * a * (1 / 1 * a) + 1 / 1 * 0 * (1 / 1 * 0)) with (a * a) by field. assert (0 < a < / 134217728). { rewrite A0. split; [apply Rmult_lt_0_compat; [lra|apply Rinv_0_lt_compat; lra]|]. apply Rmult_lt_reg_r with (N + 1); [lra|]. rewrite Rmult_assoc, Rinv_l by lra. lra. } apply Rlt_le_trans with (/ 134217728 * / 134217728); [nra|]. unfold kEpsilon. lra. }
    destruct (rltb_spec (slant 1 1 (V3 a 0 b)) kEpsilon); [|done]. cbn [orb negb vz vzero]. destruct (reqb_spec b 0); [lra|]. cbn [negb]. replace (et_dz (mk_elltube perimeter 1 1 Z)) with Z by (rewrite te by done; done). unfold rcopysign. destruct (rltb_spec b 0); [lra|]. rewrite Rabs_pos_eq by lra. apply Rmult_le_reg_r with b; [lra|]. replace ((Z - 0) / b * b) with Z by (field; lra). nra. }
  specialize (IN 268435456 ltac:(lra)). destruct IN as [_ E]. assert (X1 : 1 < 268435456 * a). { rewrite A0. apply Rmult_lt_reg_r with (N + 1); [lra|]. replace (268435456 * (536870912 * / (N + 1)) * (N + 1)) with (268435456 * 536870912) by (field; lra). lra. }
  pose proof (e_sqr 1 1 (along vzero (V3 a 0 b) 268435456)) as Q. pose proof (e_nonneg 1 1 (along vzero (V3 a 0 b) 268435456)) as Q0. cbn [vx vy along vadd vscale vzero] in Q. replace ((0 + 268435456 * a) / 1 * ((0 + 268435456 * a) / 1) + (0 + 268435456 * 0) / 1 * ((0 + 268435456 * 0) / 1)) with (268435456 * a * (268435456 * a)) in Q by field. set (g := ell _ _ _) in *. set (w := 268435456 * a) in *. clear - Q Q0 E X1. nra.
Qed.
Print Assumptions C86_to_out_parallel_refuted.
