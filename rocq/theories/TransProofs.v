(** Proofs about transformations. *)
From Coq Require Import Reals ZArith Bool Lra Lia Psatz.
From Verif Require Import Real3 TransModel TransSpec.
Local Open Scope R_scope.

Lemma transform_eq t m : transform t m = rotate_general t (do_translation t m).
Proof. reflexivity. Qed.
Lemma transform_direction_eq t m : transform_direction t m = rotate_general t m.
Proof. reflexivity. Qed.

(** Rows orthonormal implies columns orthonormal. *)
Section Cols.
Variables a b c d e f g h i : R.
Hypothesis H00 : a * a + b * b + c * c = 1.
Hypothesis H11 : d * d + e * e + f * f = 1.
Hypothesis H22 : g * g + h * h + i * i = 1.
Hypothesis H01 : a * d + b * e + c * f = 0.
Hypothesis H02 : a * g + b * h + c * i = 0.
Hypothesis H12 : d * g + e * h + f * i = 0.
Definition det9 := a * (e * i - f * h) - b * (d * i - f * g) + c * (d * h - e * g).
Lemma det9_sqr : det9 * det9 = 1.
Proof.
  replace (det9 * det9) with
    ((a*a+b*b+c*c) * ((d*d+e*e+f*f) * (g*g+h*h+i*i) - (d*g+e*h+f*i) * (d*g+e*h+f*i))
     - (a*d+b*e+c*f) * ((a*d+b*e+c*f) * (g*g+h*h+i*i) - (d*g+e*h+f*i) * (a*g+b*h+c*i))
     + (a*g+b*h+c*i) * ((a*d+b*e+c*f) * (d*g+e*h+f*i) - (d*d+e*e+f*f) * (a*g+b*h+c*i))) by (unfold det9; ring).
  rewrite H00, H11, H22, H01, H02, H12. ring.
Qed.
Lemma det9_nz : det9 <> 0.
Proof. intros E. pose proof det9_sqr as H. rewrite E in H. lra. Qed.
(** the adjugate is det times the transpose *)
Lemma adj : det9 * a = e * i - f * h /\ det9 * b = f * g - d * i /\ det9 * c = d * h - e * g /\
            det9 * d = c * h - b * i /\ det9 * e = a * i - c * g /\ det9 * f = b * g - a * h /\
            det9 * g = b * f - c * e /\ det9 * h = c * d - a * f /\ det9 * i = a * e - b * d.
Proof.
  assert (forall x y z, a * x + b * y + c * z = 0 -> d * x + e * y + f * z = 0 -> g * x + h * y + i * z = 0 -> x = 0 /\ y = 0 /\ z = 0) as U.
  { intros x y z E1 E2 E3. pose proof det9_nz as N.
    assert (det9 * x = 0) as X. { replace (det9 * x) with ((a*x+b*y+c*z) * (e*i-f*h) - (d*x+e*y+f*z) * (b*i-c*h) + (g*x+h*y+i*z) * (b*f-c*e)) by (unfold det9; ring). rewrite E1, E2, E3. ring. }
    assert (det9 * y = 0) as Y. { replace (det9 * y) with (- (a*x+b*y+c*z) * (d*i-f*g) + (d*x+e*y+f*z) * (a*i-c*g) - (g*x+h*y+i*z) * (a*f-c*d)) by (unfold det9; ring). rewrite E1, E2, E3. ring. }
    assert (det9 * z = 0) as Z. { replace (det9 * z) with ((a*x+b*y+c*z) * (d*h-e*g) - (d*x+e*y+f*z) * (a*h-b*g) + (g*x+h*y+i*z) * (a*e-b*d)) by (unfold det9; ring). rewrite E1, E2, E3. ring. }
    apply Rmult_integral in X, Y, Z. tauto. }
  assert (det9 * a - (e * i - f * h) = 0 /\ det9 * b - (f * g - d * i) = 0 /\ det9 * c - (d * h - e * g) = 0) as (A1 & A2 & A3).
  { apply U.
    - replace (a * (det9 * a - (e * i - f * h)) + b * (det9 * b - (f * g - d * i)) + c * (det9 * c - (d * h - e * g)))
        with (det9 * (a*a+b*b+c*c) - det9) by (unfold det9; ring). rewrite H00. ring.
    - replace (d * (det9 * a - (e * i - f * h)) + e * (det9 * b - (f * g - d * i)) + f * (det9 * c - (d * h - e * g)))
        with (det9 * (a*d+b*e+c*f)) by (unfold det9; ring). rewrite H01. ring.
    - replace (g * (det9 * a - (e * i - f * h)) + h * (det9 * b - (f * g - d * i)) + i * (det9 * c - (d * h - e * g)))
        with (det9 * (a*g+b*h+c*i)) by (unfold det9; ring). rewrite H02. ring. }
  assert (det9 * d - (c * h - b * i) = 0 /\ det9 * e - (a * i - c * g) = 0 /\ det9 * f - (b * g - a * h) = 0) as (B1 & B2 & B3).
  { apply U.
    - replace (a * (det9 * d - (c * h - b * i)) + b * (det9 * e - (a * i - c * g)) + c * (det9 * f - (b * g - a * h)))
        with (det9 * (a*d+b*e+c*f)) by (unfold det9; ring). rewrite H01. ring.
    - replace (d * (det9 * d - (c * h - b * i)) + e * (det9 * e - (a * i - c * g)) + f * (det9 * f - (b * g - a * h)))
        with (det9 * (d*d+e*e+f*f) - det9) by (unfold det9; ring). rewrite H11. ring.
    - replace (g * (det9 * d - (c * h - b * i)) + h * (det9 * e - (a * i - c * g)) + i * (det9 * f - (b * g - a * h)))
        with (det9 * (d*g+e*h+f*i)) by (unfold det9; ring). rewrite H12. ring. }
  assert (det9 * g - (b * f - c * e) = 0 /\ det9 * h - (c * d - a * f) = 0 /\ det9 * i - (a * e - b * d) = 0) as (C1 & C2 & C3).
  { apply U.
    - replace (a * (det9 * g - (b * f - c * e)) + b * (det9 * h - (c * d - a * f)) + c * (det9 * i - (a * e - b * d)))
        with (det9 * (a*g+b*h+c*i)) by (unfold det9; ring). rewrite H02. ring.
    - replace (d * (det9 * g - (b * f - c * e)) + e * (det9 * h - (c * d - a * f)) + f * (det9 * i - (a * e - b * d)))
        with (det9 * (d*g+e*h+f*i)) by (unfold det9; ring). rewrite H12. ring.
    - replace (g * (det9 * g - (b * f - c * e)) + h * (det9 * h - (c * d - a * f)) + i * (det9 * i - (a * e - b * d)))
        with (det9 * (g*g+h*h+i*i) - det9) by (unfold det9; ring). rewrite H22. ring. }
  repeat split; lra.
Qed.
Lemma cols : a * a + d * d + g * g = 1 /\ b * b + e * e + h * h = 1 /\ c * c + f * f + i * i = 1 /\
             a * b + d * e + g * h = 0 /\ a * c + d * f + g * i = 0 /\ b * c + e * f + h * i = 0.
Proof.
  pose proof det9_nz as N. destruct adj as (A1 & A2 & A3 & B1 & B2 & B3 & C1 & C2 & C3).
  assert (forall x, det9 * x = det9 -> x = 1) as U1 by (intros x E; apply (Rmult_eq_reg_l det9); [lra|exact N]).
  assert (forall x, det9 * x = 0 -> x = 0) as U0 by (intros x E; apply Rmult_integral in E; tauto).
  repeat split; [apply U1|apply U1|apply U1|apply U0|apply U0|apply U0].
  - replace (det9 * (a * a + d * d + g * g)) with (det9 * a * a + det9 * d * d + det9 * g * g) by ring. rewrite A1, B1, C1. unfold det9. ring.
  - replace (det9 * (b * b + e * e + h * h)) with (det9 * b * b + det9 * e * e + det9 * h * h) by ring. rewrite A2, B2, C2. unfold det9. ring.
  - replace (det9 * (c * c + f * f + i * i)) with (det9 * c * c + det9 * f * f + det9 * i * i) by ring. rewrite A3, B3, C3. unfold det9. ring.
  - replace (det9 * (a * b + d * e + g * h)) with (det9 * a * b + det9 * d * e + det9 * g * h) by ring. rewrite A1, B1, C1. ring.
  - replace (det9 * (a * c + d * f + g * i)) with (det9 * a * c + det9 * d * f + det9 * g * i) by ring. rewrite A1, B1, C1. ring.
  - replace (det9 * (b * c + e * f + h * i)) with (det9 * b * c + det9 * e * f + det9 * h * i) by ring. rewrite A2, B2, C2. ring.
Qed.
End Cols.

Ltac o9 t H := destruct t as [x0 x1 x2 a b c d e f g h i fi fr ft]; unfold ortho, vdot, row0, row1, row2 in H; cbn in H;
  destruct H as (H00 & H11 & H22 & H01 & H02 & H12).

Lemma ortho_cols t : ortho t ->
  r0 t * r0 t + r3 t * r3 t + r6 t * r6 t = 1 /\ r1 t * r1 t + r4 t * r4 t + r7 t * r7 t = 1 /\
  r2 t * r2 t + r5 t * r5 t + r8 t * r8 t = 1 /\ r0 t * r1 t + r3 t * r4 t + r6 t * r7 t = 0 /\
  r0 t * r2 t + r3 t * r5 t + r6 t * r8 t = 0 /\ r1 t * r2 t + r4 t * r5 t + r7 t * r8 t = 0.
Proof. intros H. o9 t H. cbn. now apply cols. Qed.
Lemma ortho_rows t : ortho t ->
  r0 t * r0 t + r1 t * r1 t + r2 t * r2 t = 1 /\ r3 t * r3 t + r4 t * r4 t + r5 t * r5 t = 1 /\
  r6 t * r6 t + r7 t * r7 t + r8 t * r8 t = 1 /\ r0 t * r3 t + r1 t * r4 t + r2 t * r5 t = 0 /\
  r0 t * r6 t + r1 t * r7 t + r2 t * r8 t = 0 /\ r3 t * r6 t + r4 t * r7 t + r5 t * r8 t = 0.
Proof. intros H. exact H. Qed.

(** * C17 *)
Lemma inverse_of_transform t p : ortho t -> inverse_transform t (transform t p) = p.
Proof.
  intros H%ortho_rows. rewrite transform_eq. destruct H as (E0 & E1 & E2 & E3 & E4 & E5).
  unfold inverse_transform, rotate_general, do_translation. destruct p as [x y z]. cbn.
  set (u := x - t0 t). set (v := y - t1 t). set (w := z - t2 t).
  replace x with (t0 t + u * 1 + v * 0 + w * 0) by (unfold u; ring).
  replace y with (t1 t + u * 0 + v * 1 + w * 0) by (unfold v; ring).
  replace z with (t2 t + u * 0 + v * 0 + w * 1) by (unfold w; ring).
  apply v3_eq; cbn.
  - rewrite <- E0 at 1. rewrite <- E3 at 1. rewrite <- E4 at 1. ring.
  - rewrite <- E1 at 1. rewrite <- E3 at 1. rewrite <- E5 at 1. ring.
  - rewrite <- E2 at 1. rewrite <- E4 at 1. rewrite <- E5 at 1. ring.
Qed.
Lemma transform_of_inverse t l : ortho t -> transform t (inverse_transform t l) = l.
Proof.
  intros H%ortho_cols. rewrite transform_eq. destruct H as (E0 & E1 & E2 & E3 & E4 & E5).
  unfold inverse_transform, rotate_general, do_translation. destruct l as [x y z]. apply v3_eq; cbn.
  - transitivity (x * 1 + y * 0 + z * 0); [|ring]. rewrite <- E0, <- E3 at 1. rewrite <- E4 at 1. ring.
  - transitivity (x * 0 + y * 1 + z * 0); [|ring]. rewrite <- E1 at 1. rewrite <- E3 at 1. rewrite <- E5 at 1. ring.
  - transitivity (x * 0 + y * 0 + z * 1); [|ring]. rewrite <- E2 at 1. rewrite <- E4 at 1. rewrite <- E5 at 1. ring.
Qed.
Lemma direction_dot t u v : ortho t -> vdot (transform_direction t u) (transform_direction t v) = vdot u v.
Proof.
  intros H%ortho_rows. rewrite !transform_direction_eq. destruct H as (E0 & E1 & E2 & E3 & E4 & E5).
  unfold rotate_general, vdot. destruct u as [x y z], v as [p q s]. cbn.
  transitivity (x * p * (r0 t * r0 t + r1 t * r1 t + r2 t * r2 t) + y * q * (r3 t * r3 t + r4 t * r4 t + r5 t * r5 t)
    + z * s * (r6 t * r6 t + r7 t * r7 t + r8 t * r8 t) + (x * q + y * p) * (r0 t * r3 t + r1 t * r4 t + r2 t * r5 t)
    + (x * s + z * p) * (r0 t * r6 t + r1 t * r7 t + r2 t * r8 t) + (y * s + z * q) * (r3 t * r6 t + r4 t * r7 t + r5 t * r8 t)); [ring|].
  rewrite E0, E1, E2, E3, E4, E5. ring.
Qed.
Lemma inverse_direction t u : ortho t -> inverse_transform_direction t (transform_direction t u) = u /\
  transform_direction t (inverse_transform_direction t u) = u.
Proof.
  intros H. split.
  - pose proof (inverse_of_transform t (vadd u (V3 (t0 t) (t1 t) (t2 t))) H) as E.
    rewrite transform_eq in E. rewrite transform_direction_eq.
    replace (do_translation t (vadd u (V3 (t0 t) (t1 t) (t2 t)))) with u in E by (apply v3_eq; cbn; ring).
    unfold inverse_transform in E. unfold inverse_transform_direction.
    apply (f_equal (fun v => vsub v (V3 (t0 t) (t1 t) (t2 t)))) in E. unfold vsub, vadd in E; cbn in E.
    injection E as E1 E2 E3. apply v3_eq; cbn; lra.
  - pose proof (transform_of_inverse t u H) as E. rewrite transform_eq in E. rewrite transform_direction_eq.
    rewrite <- E at 2. f_equal. unfold do_translation, inverse_transform, inverse_transform_direction. apply v3_eq; cbn; ring.
Qed.
Lemma transform_dist t p q : ortho t -> vdist (transform t p) (transform t q) = vdist p q.
Proof.
  intros H. unfold vdist, vmag. f_equal. rewrite <- (direction_dot t (vsub p q) (vsub p q) H). rewrite !transform_direction_eq, !transform_eq.
  f_equal; unfold rotate_general, do_translation, vsub; apply v3_eq; cbn; ring.
Qed.
Lemma inverse_dist t p q : ortho t -> vdist (inverse_transform t p) (inverse_transform t q) = vdist p q.
Proof. intros H. rewrite <- (transform_dist t (inverse_transform t p) (inverse_transform t q) H), !transform_of_inverse by exact H. reflexivity. Qed.

(** The inverse matrix, for every invertible one. *)
Lemma inverse_rows t : determinant t <> 0 ->
  let u := inverse t in
  r0 t * r0 u + r1 t * r3 u + r2 t * r6 u = 1 /\ r0 t * r1 u + r1 t * r4 u + r2 t * r7 u = 0 /\ r0 t * r2 u + r1 t * r5 u + r2 t * r8 u = 0 /\
  r3 t * r0 u + r4 t * r3 u + r5 t * r6 u = 0 /\ r3 t * r1 u + r4 t * r4 u + r5 t * r7 u = 1 /\ r3 t * r2 u + r4 t * r5 u + r5 t * r8 u = 0 /\
  r6 t * r0 u + r7 t * r3 u + r8 t * r6 u = 0 /\ r6 t * r1 u + r7 t * r4 u + r8 t * r7 u = 0 /\ r6 t * r2 u + r7 t * r5 u + r8 t * r8 u = 1.
Proof.
  intros N u. unfold u, inverse; cbn. unfold determinant in N |- *.
  repeat split; field; exact N.
Qed.
Lemma inverse_rows' t : determinant t <> 0 ->
  let u := inverse t in
  r0 u * r0 t + r1 u * r3 t + r2 u * r6 t = 1 /\ r0 u * r1 t + r1 u * r4 t + r2 u * r7 t = 0 /\ r0 u * r2 t + r1 u * r5 t + r2 u * r8 t = 0 /\
  r3 u * r0 t + r4 u * r3 t + r5 u * r6 t = 0 /\ r3 u * r1 t + r4 u * r4 t + r5 u * r7 t = 1 /\ r3 u * r2 t + r4 u * r5 t + r5 u * r8 t = 0 /\
  r6 u * r0 t + r7 u * r3 t + r8 u * r6 t = 0 /\ r6 u * r1 t + r7 u * r4 t + r8 u * r7 t = 0 /\ r6 u * r2 t + r7 u * r5 t + r8 u * r8 t = 1.
Proof.
  intros N u. unfold u, inverse; cbn. unfold determinant in N |- *.
  repeat split; field; exact N.
Qed.
Lemma inverse_trans t : let u := inverse t in
  t0 u = - (r0 u * t0 t + r1 u * t1 t + r2 u * t2 t) /\ t1 u = - (r3 u * t0 t + r4 u * t1 t + r5 u * t2 t) /\
  t2 u = - (r6 u * t0 t + r7 u * t1 t + r8 u * t2 t).
Proof. unfold inverse; cbn. repeat split; ring. Qed.
Lemma inverse_affine t l : determinant t <> 0 ->
  inverse_transform (inverse t) (inverse_transform t l) = l /\ inverse_transform t (inverse_transform (inverse t) l) = l.
Proof.
  intros N. pose proof (inverse_rows t N) as H. pose proof (inverse_rows' t N) as H'. pose proof (inverse_trans t) as (T0 & T1 & T2).
  set (u := inverse t) in *. cbv zeta in H, H'. clearbody u.
  destruct H as (A0 & A1 & A2 & A3 & A4 & A5 & A6 & A7 & A8). destruct H' as (B0 & B1 & B2 & B3 & B4 & B5 & B6 & B7 & B8).
  destruct l as [x y z]. unfold inverse_transform; cbn. split; apply v3_eq; cbn; rewrite ?T0, ?T1, ?T2.
  - transitivity (x * (r0 u * r0 t + r1 u * r3 t + r2 u * r6 t) + y * (r0 u * r1 t + r1 u * r4 t + r2 u * r7 t) + z * (r0 u * r2 t + r1 u * r5 t + r2 u * r8 t)); [ring|rewrite B0, B1, B2; ring].
  - transitivity (x * (r3 u * r0 t + r4 u * r3 t + r5 u * r6 t) + y * (r3 u * r1 t + r4 u * r4 t + r5 u * r7 t) + z * (r3 u * r2 t + r4 u * r5 t + r5 u * r8 t)); [ring|rewrite B3, B4, B5; ring].
  - transitivity (x * (r6 u * r0 t + r7 u * r3 t + r8 u * r6 t) + y * (r6 u * r1 t + r7 u * r4 t + r8 u * r7 t) + z * (r6 u * r2 t + r7 u * r5 t + r8 u * r8 t)); [ring|rewrite B6, B7, B8; ring].
  - transitivity (t0 t + (x - t0 t) * (r0 t * r0 u + r1 t * r3 u + r2 t * r6 u) + (y - t1 t) * (r0 t * r1 u + r1 t * r4 u + r2 t * r7 u) + (z - t2 t) * (r0 t * r2 u + r1 t * r5 u + r2 t * r8 u)); [ring|rewrite A0, A1, A2; ring].
  - transitivity (t1 t + (x - t0 t) * (r3 t * r0 u + r4 t * r3 u + r5 t * r6 u) + (y - t1 t) * (r3 t * r1 u + r4 t * r4 u + r5 t * r7 u) + (z - t2 t) * (r3 t * r2 u + r4 t * r5 u + r5 t * r8 u)); [ring|rewrite A3, A4, A5; ring].
  - transitivity (t2 t + (x - t0 t) * (r6 t * r0 u + r7 t * r3 u + r8 t * r6 u) + (y - t1 t) * (r6 t * r1 u + r7 t * r4 u + r8 t * r7 u) + (z - t2 t) * (r6 t * r2 u + r7 t * r5 u + r8 t * r8 u)); [ring|rewrite A6, A7, A8; ring].
Qed.
Lemma ortho_det t : ortho t -> determinant t * determinant t = 1.
Proof. intros H. o9 t H. unfold determinant; cbn. exact (det9_sqr a b c d e f g h i H00 H11 H22 H01 H02 H12). Qed.
Lemma ortho_inverse t : ortho t ->
  let u := inverse t in
  r0 u = r0 t /\ r1 u = r3 t /\ r2 u = r6 t /\ r3 u = r1 t /\ r4 u = r4 t /\ r5 u = r7 t /\ r6 u = r2 t /\ r7 u = r5 t /\ r8 u = r8 t.
Proof.
  intros H. pose proof (ortho_det t H) as D. o9 t H.
  destruct (adj a b c d e f g h i H00 H11 H22 H01 H02 H12) as (A1 & A2 & A3 & B1 & B2 & B3 & C1 & C2 & C3).
  pose proof (det9_nz a b c d e f g h i H00 H11 H22 H01 H02 H12) as N.
  unfold inverse, determinant; cbn. unfold determinant in D; cbn in D. fold (det9 a b c d e f g h i) in *. set (D9 := det9 a b c d e f g h i) in *.
  repeat split.
  - replace (e * i - f * h) with (D9 * a) by lra. field; exact N.
  - replace (b * i - c * h) with (- (D9 * d)) by lra. field; exact N.
  - replace (b * f - c * e) with (D9 * g) by lra. field; exact N.
  - replace (d * i - f * g) with (- (D9 * b)) by lra. field; exact N.
  - replace (a * i - c * g) with (D9 * e) by lra. field; exact N.
  - replace (a * f - c * d) with (- (D9 * h)) by lra. field; exact N.
  - replace (d * h - e * g) with (D9 * c) by lra. field; exact N.
  - replace (a * h - b * g) with (- (D9 * f)) by lra. field; exact N.
  - replace (a * e - b * d) with (D9 * i) by lra. field; exact N.
Qed.
Lemma ortho_inverse_ortho t : ortho t -> ortho (inverse t).
Proof.
  intros H. pose proof (ortho_inverse t H) as (E0 & E1 & E2 & E3 & E4 & E5 & E6 & E7 & E8). pose proof (ortho_cols t H) as (F0 & F1 & F2 & F3 & F4 & F5).
  unfold ortho, row0, row1, row2, vdot. cbn [vx vy vz]. rewrite E0, E1, E2, E3, E4, E5, E6, E7, E8. repeat split; lra.
Qed.
Lemma inverse_is_inverse t p : ortho t ->
  transform (inverse t) p = inverse_transform t p /\ inverse_transform (inverse t) p = transform t p.
Proof.
  intros H. assert (determinant t <> 0) as N. { intros E. pose proof (ortho_det t H) as D. rewrite E in D. lra. }
  assert (forall q, inverse_transform (inverse t) q = transform t q) as K.
  { intros q. rewrite <- (inverse_of_transform t q H) at 1. apply (inverse_affine t _ N). }
  split; [|apply K]. rewrite <- (transform_of_inverse t p H) at 1. rewrite <- K.
  apply transform_of_inverse, ortho_inverse_ortho, H.
Qed.

(** * C18 *)
Lemma multiply_inverse_transform a b l : flags_ok b ->
  inverse_transform (multiply a b) l = inverse_transform a (inverse_transform b l).
Proof.
  intros (Fi & Ft & Fr). unfold multiply. destruct a as [], b as [? ? ? ? ? ? ? ? ? ? ? ? fi fr ft].
  unfold row0, row1, row2 in Fr. cbn in *. subst fi.
  destruct ft, fr; cbn;
    try (destruct (Ft eq_refl) as (-> & -> & ->)); try (destruct (Fr eq_refl) as (E0 & E1 & E2); injection E0 as -> -> ->; injection E1 as -> -> ->; injection E2 as -> -> ->);
    unfold inverse_transform; cbn; apply v3_eq; cbn; ring.
Qed.
Lemma multiply_direction a b v : flags_ok b ->
  transform_direction (multiply a b) v = transform_direction b (transform_direction a v).
Proof.
  intros (Fi & Ft & Fr). rewrite !transform_direction_eq. unfold multiply. destruct a as [], b as [? ? ? ? ? ? ? ? ? ? ? ? fi fr ft].
  unfold row0, row1, row2 in Fr. cbn in *. subst fi.
  destruct ft, fr; cbn;
    try (destruct (Ft eq_refl) as (-> & -> & ->)); try (destruct (Fr eq_refl) as (E0 & E1 & E2); injection E0 as -> -> ->; injection E1 as -> -> ->; injection E2 as -> -> ->);
    unfold rotate_general; cbn; apply v3_eq; cbn; ring.
Qed.
Lemma multiply_ortho a b : flags_ok b -> ortho a -> ortho b -> ortho (multiply a b).
Proof.
  intros F Ha Hb.
  (* the rows of the product are the images of unit vectors *)
  assert (forall u v, vdot (transform_direction (multiply a b) u) (transform_direction (multiply a b) v) = vdot u v) as D0'.
  { intros u v. rewrite !multiply_direction by exact F. rewrite !direction_dot by assumption. reflexivity. }
  assert (forall u v, vdot (rotate_general (multiply a b) u) (rotate_general (multiply a b) v) = vdot u v) as D by exact D0'.
  set (m := multiply a b) in *.
  pose proof (D (V3 1 0 0) (V3 1 0 0)) as D0. pose proof (D (V3 0 1 0) (V3 0 1 0)) as D1. pose proof (D (V3 0 0 1) (V3 0 0 1)) as D2.
  pose proof (D (V3 1 0 0) (V3 0 1 0)) as D3. pose proof (D (V3 1 0 0) (V3 0 0 1)) as D4. pose proof (D (V3 0 1 0) (V3 0 0 1)) as D5.
  unfold rotate_general, vdot in *. cbn [vx vy vz] in *.
  unfold ortho, row0, row1, row2, vdot. cbn [vx vy vz]. clearbody m. clear - D0 D1 D2 D3 D4 D5. repeat split; lra.
Qed.
Lemma multiply_transform a b p : flags_ok b -> ortho a -> ortho b -> transform (multiply a b) p = transform b (transform a p).
Proof.
  intros F Ha Hb. pose proof (multiply_ortho a b F Ha Hb) as Hm.
  rewrite <- (inverse_of_transform a p Ha) at 1. rewrite <- (inverse_of_transform b (transform a p) Hb) at 1.
  rewrite <- multiply_inverse_transform by exact F. apply transform_of_inverse, Hm.
Qed.
Lemma multiply_flags a b : flags_ok a -> flags_ok b -> flags_ok (multiply a b).
Proof.
  intros (Ai & At & Ar) (Bi & Bt & Br). unfold multiply. destruct a as [? ? ? ? ? ? ? ? ? ? ? ? ai ar at_], b as [? ? ? ? ? ? ? ? ? ? ? ? fi fr ft].
  unfold flags_ok, row0, row1, row2 in *. cbn in *. subst.
  destruct ft, fr; cbn; repeat split; try (destruct at_, ar; reflexivity); try (intros E; destruct at_; discriminate E); try (intros E; destruct ar; discriminate E);
  try (destruct at_; [discriminate|now apply At]); try (destruct ar; [discriminate|now apply Ar]); auto;
  destruct at_, ar; cbn in *; try discriminate; intros; try (now apply At); try (now apply Ar).
Qed.
Lemma multiply_assoc a b c : flags_ok b -> flags_ok c -> same_map (multiply (multiply a b) c) (multiply a (multiply b c)).
Proof.
  intros (Bi & Bt & Br) (Ci & Ct & Cr). unfold multiply.
  destruct a as [? ? ? ? ? ? ? ? ? ? ? ? ai ar at_], b as [? ? ? ? ? ? ? ? ? ? ? ? bi br bt], c as [? ? ? ? ? ? ? ? ? ? ? ? ci cr ct].
  unfold same_map, row0, row1, row2 in *. cbn in *. subst.
  destruct bt, br, ct, cr; cbn; repeat split; try (f_equal; ring); try ring;
    try (destruct (Bt eq_refl) as (-> & -> & ->)); try (destruct (Br eq_refl) as (E0 & E1 & E2); injection E0 as -> -> ->; injection E1 as -> -> ->; injection E2 as -> -> ->);
    try (destruct (Ct eq_refl) as (-> & -> & ->)); try (destruct (Cr eq_refl) as (E0' & E1' & E2'); injection E0' as -> -> ->; injection E1' as -> -> ->; injection E2' as -> -> ->);
    try (f_equal; ring); ring.
Qed.
Lemma one_ok : flags_ok tr_one /\ ortho tr_one.
Proof. unfold flags_ok, ortho, row0, row1, row2, vdot; cbn. repeat split; auto; try discriminate; ring. Qed.
Lemma translation_ok x y z : flags_ok (tr_translation x y z) /\ ortho (tr_translation x y z).
Proof.
  unfold flags_ok, ortho, row0, row1, row2, vdot, tr_translation; cbn.
  destruct (reqb_spec x 0), (reqb_spec y 0), (reqb_spec z 0); cbn; repeat split; auto; try discriminate; try ring.
Qed.
Lemma set_flags a : flags_ok a -> same_map (tr_set a (hast a) (hasr a)) a /\ flags_ok (tr_set a (hast a) (hasr a)).
Proof.
  intros (Ai & At & Ar). destruct a as [? ? ? ? ? ? ? ? ? ? ? ? ai ar at_]. unfold same_map, flags_ok, row0, row1, row2, tr_set in *. cbn in *. subst.
  destruct at_, ar; cbn;
    try (destruct (At eq_refl) as (-> & -> & ->)); try (destruct (Ar eq_refl) as (E0 & E1 & E2); injection E0 as -> -> ->; injection E1 as -> -> ->; injection E2 as -> -> ->);
    repeat split; auto; discriminate.
Qed.
Lemma same_map_transform a b p : same_map a b -> transform a p = transform b p /\ inverse_transform a p = inverse_transform b p /\
   transform_direction a p = transform_direction b p.
Proof.
  intros (E0 & E1 & E2 & F0 & F1 & F2). destruct a, b. unfold row0, row1, row2 in *. cbn in *.
  injection F0 as -> -> ->. injection F1 as -> -> ->. injection F2 as -> -> ->. subst. repeat split.
Qed.
Lemma same_map_ortho a b : same_map a b -> ortho b -> ortho a.
Proof. intros (_ & _ & _ & F0 & F1 & F2) H. unfold ortho in *. now rewrite F0, F1, F2. Qed.
