(** Lemmas about boxes. *)
From Coq Require Import Reals Lra Psatz Bool List.
From Verif Require Import Real3 AABBModel AABBSpec AABBProofs BoxModel BoxSpec.
Local Open Scope R_scope.

Lemma abs_le x a : Rabs x <= a <-> - a <= x <= a.
Proof. split; [intros H; pose proof (Rle_abs x); pose proof (Rle_abs (- x)); rewrite Rabs_Ropp in *; lra|]. intros H. apply Rabs_le. lra. Qed.
Lemma abs_lt x a : Rabs x < a <-> - a < x < a.
Proof. split; [intros H; apply Rabs_def2 in H; lra|]. intros H. apply Rabs_def1; lra. Qed.
Lemma outer_le b p k : box_outer b p <= k <-> closed (wider k b) p.
Proof.
  unfold box_outer. rewrite vmax_le. cbn. unfold closed, in_box, centred, wider, vneg; cbn. pose proof (abs_le (vx p) (vx b + k)). pose proof (abs_le (vy p) (vy b + k)). pose proof (abs_le (vz p) (vz b + k)).
  split; [intros (A & B & C); assert (Rabs (vx p) <= vx b + k) by lra; assert (Rabs (vy p) <= vy b + k) by lra; assert (Rabs (vz p) <= vz b + k) by lra; intuition lra|].
  intros (A & B & C). assert (Rabs (vx p) <= vx b + k) by (apply H; lra). assert (Rabs (vy p) <= vy b + k) by (apply H0; lra). assert (Rabs (vz p) <= vz b + k) by (apply H1; lra). lra.
Qed.
Lemma outer_lt b p k : box_outer b p < k <-> interior (wider k b) p.
Proof.
  unfold box_outer. rewrite vmax_lt. cbn. unfold interior, in_interior, centred, wider, vneg; cbn. pose proof (abs_lt (vx p) (vx b + k)). pose proof (abs_lt (vy p) (vy b + k)). pose proof (abs_lt (vz p) (vz b + k)).
  split; [intros (A & B & C); assert (Rabs (vx p) < vx b + k) by lra; assert (Rabs (vy p) < vy b + k) by lra; assert (Rabs (vz p) < vz b + k) by lra; intuition lra|].
  intros (A & B & C). assert (Rabs (vx p) < vx b + k) by (apply H; lra). assert (Rabs (vy p) < vy b + k) by (apply H0; lra). assert (Rabs (vz p) < vz b + k) by (apply H1; lra). lra.
Qed.
Lemma wider_0 b : wider 0 b = b.
Proof. apply v3_eq; cbn; lra. Qed.
Lemma outer_closed b p : box_outer b p <= 0 <-> closed b p.
Proof. rewrite outer_le, wider_0. reflexivity. Qed.
Lemma outer_interior b p : box_outer b p < 0 <-> interior b p.
Proof. rewrite outer_lt, wider_0. reflexivity. Qed.
Lemma safety_out_neg b p : box_safety_out b p = - box_outer b p.
Proof. unfold box_safety_out, box_outer, vmin, vmax; cbn. unfold Rmin, Rmax. repeat destruct (Rle_dec _ _); lra. Qed.
(** [box_outer] changes by at most the distance. *)
Lemma outer_lip b p q : box_outer b p <= box_outer b q + vdist p q.
Proof.
  unfold box_outer at 1. apply vmax_le. cbn. assert (forall c, c <= box_outer b q -> True) by trivial.
  assert (box_outer b q <= box_outer b q) as H0 by lra. unfold box_outer in H0 at 1. apply vmax_le in H0. cbn in H0.
  pose proof (vx_le_mag (vsub p q)). pose proof (vy_le_mag (vsub p q)). pose proof (vz_le_mag (vsub p q)). cbn in *. unfold vdist.
  pose proof (Rabs_triang_inv (vx p) (vx q)). pose proof (Rabs_triang_inv (vy p) (vy q)). pose proof (Rabs_triang_inv (vz p) (vz q)). lra.
Qed.

(** ** Rays *)
Definition tin (a p d : R) : R := (- (rsign d * a) - p) * (1 / nonzero d).
Definition tout (a p d : R) : R := (rsign d * a - p) * (1 / nonzero d).
Lemma axis a p d : exists k, 0 < k /\ forall t, t - tin a p d = (rsign d * (p + t * nonzero d) + a) * k /\ tout a p d - t = (a - rsign d * (p + t * nonzero d)) * k.
Proof.
  unfold tin, tout, rsign, nonzero. pose proof kTiny_pos. destruct (rltb_spec d 0) as [L|L]; set (f := d + _).
  - assert (f < 0) by (unfold f; lra). exists (1 / (- f)). split; [apply Rdiv_lt_0_compat; lra|]. intros t. split; field; lra.
  - assert (0 < f) by (unfold f; lra). exists (1 / f). split; [apply Rdiv_lt_0_compat; lra|]. intros t. split; field; lra.
Qed.
Lemma mult_pos x k : 0 < k -> (0 <= x * k <-> 0 <= x) /\ (0 < x * k <-> 0 < x).
Proof. intros Hk. split; split; intros H; try nra; destruct (Rle_lt_dec x 0); nra. Qed.
Lemma sign_cases d : rsign d = 1 \/ rsign d = -1.
Proof. unfold rsign. destruct (rltb_spec d 0); lra. Qed.
Lemma axis_closed a p d t : - a <= p + t * nonzero d <= a <-> tin a p d <= t <= tout a p d.
Proof.
  destruct (axis a p d) as (k & Hk & H). destruct (H t) as [H1 H2]. destruct (mult_pos (rsign d * (p + t * nonzero d) + a) k Hk) as [A _]. destruct (mult_pos (a - rsign d * (p + t * nonzero d)) k Hk) as [B _].
  rewrite <- H1 in A. rewrite <- H2 in B. destruct (sign_cases d) as [E|E]; rewrite E in *; split; intros K; [assert (0 <= 1 * (p + t * nonzero d) + a) by lra|assert (0 <= t - tin a p d) by lra|assert (0 <= -1 * (p + t * nonzero d) + a) by lra|assert (0 <= t - tin a p d) by lra];
  [assert (0 <= a - 1 * (p + t * nonzero d)) by lra|assert (0 <= tout a p d - t) by lra|assert (0 <= a - -1 * (p + t * nonzero d)) by lra|assert (0 <= tout a p d - t) by lra]; intuition lra.
Qed.
Lemma axis_open a p d t : - a < p + t * nonzero d < a <-> tin a p d < t < tout a p d.
Proof.
  destruct (axis a p d) as (k & Hk & H). destruct (H t) as [H1 H2]. destruct (mult_pos (rsign d * (p + t * nonzero d) + a) k Hk) as [_ A]. destruct (mult_pos (a - rsign d * (p + t * nonzero d)) k Hk) as [_ B].
  rewrite <- H1 in A. rewrite <- H2 in B. destruct (sign_cases d) as [E|E]; rewrite E in *; split; intros K; [assert (0 < 1 * (p + t * nonzero d) + a) by lra|assert (0 < t - tin a p d) by lra|assert (0 < -1 * (p + t * nonzero d) + a) by lra|assert (0 < t - tin a p d) by lra];
  [assert (0 < a - 1 * (p + t * nonzero d)) by lra|assert (0 < tout a p d - t) by lra|assert (0 < a - -1 * (p + t * nonzero d)) by lra|assert (0 < tout a p d - t) by lra]; intuition lra.
Qed.
Definition dist_in (b p d : v3) : R := vmax (V3 (tin (vx b) (vx p) (vx d)) (tin (vy b) (vy p) (vy d)) (tin (vz b) (vz p) (vz d))).
Definition dist_out (b p d : v3) : R := vmin (V3 (tout (vx b) (vx p) (vx d)) (tout (vy b) (vy p) (vy d)) (tout (vz b) (vz p) (vz d))).
Lemma vmin_gt a k : k < vmin a <-> k < vx a /\ k < vy a /\ k < vz a.
Proof. unfold vmin, Rmin. repeat destruct (Rle_dec _ _); split; intros; repeat split; lra. Qed.
Lemma closed_ray b p d t : closed b (along p (vnonzero d) t) <-> dist_in b p d <= t <= dist_out b p d.
Proof.
  unfold closed, in_box, centred, vneg, along, vnonzero, dist_in, dist_out; cbn. rewrite vmax_le, vmin_ge; cbn.
  pose proof (axis_closed (vx b) (vx p) (vx d) t). pose proof (axis_closed (vy b) (vy p) (vy d) t). pose proof (axis_closed (vz b) (vz p) (vz d) t).
  split; intros K; intuition lra.
Qed.
Lemma interior_ray b p d t : interior b (along p (vnonzero d) t) <-> dist_in b p d < t < dist_out b p d.
Proof.
  unfold interior, in_interior, centred, vneg, along, vnonzero, dist_in, dist_out; cbn. rewrite vmax_lt, vmin_gt; cbn.
  pose proof (axis_open (vx b) (vx p) (vx d) t). pose proof (axis_open (vy b) (vy p) (vy d) t). pose proof (axis_open (vz b) (vz p) (vz d) t).
  split; intros K; intuition lra.
Qed.
Lemma along_0 p d : along p d 0 = p.
Proof. apply v3_eq; cbn; lra. Qed.
Lemma to_out_eq b p d : box_to_out b p d = if rgtb (box_outer b p) kHalfTolerance then -1 else dist_out b p d.
Proof. reflexivity. Qed.
Lemma to_in_eq inf b p d : box_to_in inf b p d =
  if rgeb (dist_in b p d) (dist_out b p d) || rleb (dist_out b p d) kHalfTolerance || rleb (Rabs (vmin (vmul (vsign d) (vsub (vmul (vsign d) b) p)))) kHalfTolerance then inf else dist_in b p d.
Proof.
  unfold box_to_in, dist_in, tin. cbn. replace (vmul _ _) with (V3 ((- (rsign (vx d) * vx b) - vx p) * (1 / nonzero (vx d))) ((- (rsign (vy d) * vy b) - vy p) * (1 / nonzero (vy d))) ((- (rsign (vz d) * vz b) - vz p) * (1 / nonzero (vz d)))); [reflexivity|].
  apply v3_eq; cbn; ring.
Qed.
Lemma sign_mul d : rsign d * rsign d = 1.
Proof. destruct (sign_cases d) as [-> | ->]; lra. Qed.
Lemma margin_val b p d : vmin (vmul (vsign d) (vsub (vmul (vsign d) b) p)) = vmin (V3 (vx b - rsign (vx d) * vx p) (vy b - rsign (vy d) * vy p) (vz b - rsign (vz d) * vz p)).
Proof. f_equal. apply v3_eq; cbn; [destruct (sign_cases (vx d)) as [-> | ->]|destruct (sign_cases (vy d)) as [-> | ->]|destruct (sign_cases (vz d)) as [-> | ->]]; lra. Qed.
Lemma vmin_attained a : vmin a = vx a \/ vmin a = vy a \/ vmin a = vz a.
Proof. unfold vmin, Rmin. repeat destruct (Rle_dec _ _); auto. Qed.
Lemma vmax_attained a : vmax a = vx a \/ vmax a = vy a \/ vmax a = vz a.
Proof. unfold vmax, Rmax. repeat destruct (Rle_dec _ _); auto. Qed.
Lemma sign_nonzero d : 0 <= rsign d * nonzero d.
Proof. unfold rsign, nonzero. pose proof kTiny_pos. destruct (rltb_spec d 0); nra. Qed.
Lemma axis_depth a p d t : 0 <= t -> a - Rabs (p + t * nonzero d) <= a - rsign d * p.
Proof.
  intros Ht. pose proof (sign_nonzero d). assert (0 <= t * (rsign d * nonzero d)) by nra.
  pose proof (Rle_abs (p + t * nonzero d)). pose proof (Rle_abs (- (p + t * nonzero d))). rewrite Rabs_Ropp in *. destruct (sign_cases d) as [E|E]; rewrite E in *; lra.
Qed.
(** After the third test no point ahead is deeper than the margin. *)
Lemma depth_le b p d t : 0 <= t -> box_safety_out b (along p (vnonzero d) t) <= vmin (vmul (vsign d) (vsub (vmul (vsign d) b) p)).
Proof.
  intros Ht. rewrite margin_val. apply vmin_ge; cbn. unfold box_safety_out.
  assert (vmin (vsub b (vabs (along p (vnonzero d) t))) <= vmin (vsub b (vabs (along p (vnonzero d) t)))) as H by lra. apply vmin_ge in H. cbn in H.
  pose proof (axis_depth (vx b) (vx p) (vx d) t Ht). pose proof (axis_depth (vy b) (vy p) (vy d) t Ht). pose proof (axis_depth (vz b) (vz p) (vz d) t Ht). lra.
Qed.

(** ** Normal *)
Lemma normal_comp (s m x : R) : let n := (if rltb (s - m) kHalfTolerance then rsign x else 0) in n = 0 \/ ((n = 1 \/ n = -1) /\ n = rsign x /\ s - m < kHalfTolerance).
Proof. cbn. destruct (rltb_spec (s - m) kHalfTolerance); [right|left; reflexivity]. split; [apply sign_cases|auto]. Qed.
Lemma sign_abs x : rsign x * x = Rabs x.
Proof. unfold rsign. destruct (rltb_spec x 0); [rewrite Rabs_left by lra; lra|rewrite Rabs_right by lra; lra]. Qed.
Lemma unit_scale n : 1 < vdot n n -> vdot (vscale (1 / vmag n) n) (vscale (1 / vmag n) n) = 1.
Proof.
  intros H. pose proof (vmag_sqr n). assert (0 < vmag n) by (pose proof (vmag_nonneg n); nra).
  transitivity (vdot n n * (1 / (vmag n * vmag n))); [unfold vdot; cbn; field; lra|]. rewrite <- H0. field. lra.
Qed.
Lemma normal_shape b p : exists n, (vx n = 0 \/ vx n = 1 \/ vx n = -1) /\ (vy n = 0 \/ vy n = 1 \/ vy n = -1) /\ (vz n = 0 \/ vz n = 1 \/ vz n = -1) /\ 1 <= vdot n n /\
  (vx n <> 0 -> vx n = rsign (vx p) /\ Rabs (Rabs (vx p) - vx b) - vmin (vabs (vsub (vabs p) b)) < kHalfTolerance) /\
  (vy n <> 0 -> vy n = rsign (vy p) /\ Rabs (Rabs (vy p) - vy b) - vmin (vabs (vsub (vabs p) b)) < kHalfTolerance) /\
  (vz n <> 0 -> vz n = rsign (vz p) /\ Rabs (Rabs (vz p) - vz b) - vmin (vabs (vsub (vabs p) b)) < kHalfTolerance) /\
  box_normal b p = (if rgtb (vdot n n) 1 then vscale (1 / vmag n) n else n, rltb (vmin (vabs (vsub (vabs p) b))) kHalfTolerance).
Proof.
  unfold box_normal. eexists. split; [|split; [|split; [|split; [|split; [|split; [|split; [|reflexivity]]]]]]]; cbn [vx vy vz].
  1-3: match goal with |- context [rltb ?a ?b] => destruct (rltb a b) end; [destruct (sign_cases (vx p)), (sign_cases (vy p)), (sign_cases (vz p)); auto|auto].
  - pose proof kHalfTolerance_pos. pose proof (vmin_attained (vabs (vsub (vabs p) b))) as A. set (m := vmin _) in *. unfold vdot; cbn [vx vy vz].
    assert (forall s x, s = m -> (if rltb (s - m) kHalfTolerance then rsign x else 0) * (if rltb (s - m) kHalfTolerance then rsign x else 0) = 1) as K.
    { intros s x ->. destruct (rltb_spec (m - m) kHalfTolerance); [apply sign_mul|lra]. }
    assert (forall z, 0 <= z * z) as S by (intros; nra).
    match goal with |- 1 <= ?a * ?a + ?b * ?b + ?c * ?c => pose proof (S a); pose proof (S b); pose proof (S c) end.
    destruct A as [A|[A|A]]; symmetry in A; [pose proof (K _ (vx p) A)|pose proof (K _ (vy p) A)|pose proof (K _ (vz p) A)]; lra.
  - cbn. intros N. destruct (rltb_spec (Rabs (Rabs (vx p) - vx b) - vmin (vabs (vsub (vabs p) b))) kHalfTolerance); [auto|exfalso; apply N; reflexivity].
  - cbn. intros N. destruct (rltb_spec (Rabs (Rabs (vy p) - vy b) - vmin (vabs (vsub (vabs p) b))) kHalfTolerance); [auto|exfalso; apply N; reflexivity].
  - cbn. intros N. destruct (rltb_spec (Rabs (Rabs (vz p) - vz b) - vmin (vabs (vsub (vabs p) b))) kHalfTolerance); [auto|exfalso; apply N; reflexivity].
Qed.
Lemma comp_bound n x a q m : (n <> 0 -> n = rsign x /\ Rabs (Rabs x - a) - m < kHalfTolerance) -> m < kHalfTolerance -> - a <= q <= a -> n * (q - x) <= kTolerance.
Proof.
  intros H Hm Hq. pose proof kTolerance_pos. unfold kHalfTolerance in *. destruct (Req_EM_T n 0) as [->|N]; [lra|]. destruct (H N) as [-> K].
  assert (rsign x * q <= a) by (destruct (sign_cases x) as [-> | ->]; lra). pose proof (sign_abs x).
  pose proof (Rle_abs (- (Rabs x - a))). rewrite Rabs_Ropp in *. nra.
Qed.
