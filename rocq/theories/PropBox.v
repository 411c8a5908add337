(** Boxes: classification, safeties, ray distances, normals, sampling. *)
From Coq Require Import Reals Lra Psatz Bool List.
From Verif Require Import Real3 AABBModel AABBSpec AABBProofs BoxModel BoxSpec BoxProofs.
Local Open Scope R_scope.

(** ** Classification: VecGeom/volumes/kernel/BoxImplementation.h:44-71 *)
(** Contains: the open box.  Inside: the closed box made smaller by half the tolerance is kInside, what
    is outside the open box made larger by half the tolerance is kOutside, the shell between them kSurface. *)
Theorem C37_classes b p :
  (box_contains b p = true <-> interior b p) /\
  (box_inside b p = kInside <-> closed (wider (- kHalfTolerance) b) p) /\
  (box_inside b p = kOutside <-> ~ interior (wider kHalfTolerance b) p) /\
  (box_inside b p = kSurface <-> interior (wider kHalfTolerance b) p /\ ~ closed (wider (- kHalfTolerance) b) p).
Proof.
  unfold box_contains, box_inside. rewrite <- outer_interior, <- outer_le, <- !outer_lt, rltb_true. pose proof kHalfTolerance_pos.
  destruct (rltb_spec (Rabs (box_outer b p)) kHalfTolerance) as [L|L]; [apply abs_lt in L|assert (~ (- kHalfTolerance < box_outer b p < kHalfTolerance)) as L' by (intros K; apply abs_lt in K; lra)];
  [|destruct (rltb_spec (box_outer b p) 0)];
  (split; [reflexivity|split; [split; intros K; try discriminate; try reflexivity; lra|split; [split; intros K; try discriminate; try reflexivity; lra|split; intros K; try discriminate; try reflexivity; lra]]]).
Qed.
Print Assumptions C37_classes.
Theorem C37_consistent b p :
  (box_inside b p = kInside -> box_contains b p = true) /\ (box_inside b p = kOutside -> box_contains b p = false) /\
  (box_inside b p = kInside <-> 0 < kHalfTolerance <= box_safety_out b p) /\ (box_inside b p = kOutside <-> 0 < kHalfTolerance <= box_safety_in b p) /\
  (box_inside b p = kSurface <-> Rabs (box_safety_in b p) < kHalfTolerance) /\
  box_safety_out b p = - box_safety_in b p /\ (box_contains b p = true <-> 0 < box_safety_out b p).
Proof.
  rewrite safety_out_neg. unfold box_contains, box_inside, box_safety_in. pose proof kHalfTolerance_pos.
  destruct (rltb_spec (Rabs (box_outer b p)) kHalfTolerance) as [L|L]; [pose proof L as K; apply abs_lt in K|assert (~ (- kHalfTolerance < box_outer b p < kHalfTolerance)) as L' by (intros K; apply abs_lt in K; lra)];
  destruct (rltb_spec (box_outer b p) 0); repeat split; intros; try discriminate; try reflexivity; try lra.
Qed.
Print Assumptions C37_consistent.
(** The classes of the shared kernel differ from Inside only for points at exactly half the tolerance. *)
Theorem C37_generic b p :
  (fst (box_generic b p) = true -> box_inside b p = kInside) /\ (snd (box_generic b p) = true -> box_inside b p = kOutside) /\
  (box_inside b p = kSurface -> box_generic b p = (false, false)) /\
  (Rabs (box_safety_in b p) <> kHalfTolerance -> box_generic b p = (match box_inside b p with kInside => true | _ => false end, match box_inside b p with kOutside => true | _ => false end)).
Proof.
  unfold box_generic, box_inside, box_safety_in, rgtb. cbn [fst snd]. pose proof kHalfTolerance_pos.
  destruct (rltb_spec (Rabs (box_outer b p)) kHalfTolerance) as [L|L]; [pose proof L as K; apply abs_lt in K|assert (~ (- kHalfTolerance < box_outer b p < kHalfTolerance)) as L' by (intros K; apply abs_lt in K; lra)];
  destruct (rltb_spec (box_outer b p) 0); destruct (rltb_spec (box_outer b p) (- kHalfTolerance)); destruct (rltb_spec kHalfTolerance (box_outer b p)); repeat split; intros; try discriminate; try reflexivity; try lra;
  exfalso; match goal with H : Rabs _ <> _ |- _ => apply H end; [rewrite Rabs_left by lra; lra|rewrite Rabs_right by lra; lra].
Qed.
Print Assumptions C37_generic.
(** The safeties are lower bounds of the distance to the other side; inside, one is attained. *)
Theorem C37_safeties b p :
  (forall q, closed b q -> box_safety_in b p <= vdist p q) /\
  (forall q, ~ interior b q -> box_safety_out b p <= vdist p q) /\
  (closed b p -> exists q, surface b q /\ vdist p q = box_safety_out b p).
Proof.
  split; [|split].
  - intros q Hq. apply outer_closed in Hq. pose proof (outer_lip b p q). unfold box_safety_in. lra.
  - intros q Hq. rewrite <- outer_interior in Hq. rewrite safety_out_neg. pose proof (outer_lip b q p). rewrite (vdist_comm q p) in *. lra.
  - intros Hp. pose proof (proj2 (outer_closed b p) Hp) as Ho. rewrite safety_out_neg. set (k := box_outer b p) in *.
    destruct Hp as (Hx & Hy & Hz). unfold centred, vneg in *; cbn in *.
    assert (k <= k) as Hk by lra. unfold k in Hk at 1. unfold box_outer in Hk. apply vmax_le in Hk. cbn in Hk.
    assert (forall n x a, (n = 1 \/ n = -1) -> n * x = Rabs x -> Rabs x - a = k -> -1 * a <= x + - k * n <= a) as Hc.
    { intros n x a [-> | ->] E1 E2; pose proof (Rabs_pos x); lra. }
    assert (forall v, vdot v v = k * k -> vmag v = - k) as Hm.
    { intros v E. unfold vmag. rewrite E. replace (k * k) with (- k * - k) by lra. apply sqrt_square. lra. }
    assert (forall x a n, Rabs x - a = k -> n * x = Rabs x -> n * n = 1 -> ~ (-1 * a < x + - k * n < a)) as Hn.
    { intros x a n E1 E2 E3 K. assert (n = 1 \/ n = -1) as [-> | ->] by (assert ((n - 1) * (n + 1) = 0) as Z by lra; apply Rmult_integral in Z; lra); lra. }
    destruct (vmax_attained (vsub (vabs p) b)) as [A|[A|A]]; fold (box_outer b p) in A; fold k in A; cbn in A.
    + exists (V3 (vx p + - k * rsign (vx p)) (vy p) (vz p)). split; [split|].
      * split; cbn; [apply Hc; [apply sign_cases|apply sign_abs|lra]|lra].
      * intros (K & _). revert K. cbn. apply Hn; [lra|apply sign_abs|apply sign_mul].
      * apply Hm. unfold vdot; cbn. transitivity (k * k * (rsign (vx p) * rsign (vx p))); [ring|]. rewrite sign_mul. ring.
    + exists (V3 (vx p) (vy p + - k * rsign (vy p)) (vz p)). split; [split|].
      * split; cbn; [lra|split; [apply Hc; [apply sign_cases|apply sign_abs|lra]|lra]].
      * intros (_ & K & _). revert K. cbn. apply Hn; [lra|apply sign_abs|apply sign_mul].
      * apply Hm. unfold vdot; cbn. transitivity (k * k * (rsign (vy p) * rsign (vy p))); [ring|]. rewrite sign_mul. ring.
    + exists (V3 (vx p) (vy p) (vz p + - k * rsign (vz p))). split; [split|].
      * split; cbn; [lra|split; [lra|apply Hc; [apply sign_cases|apply sign_abs|lra]]].
      * intros (_ & _ & K). revert K. cbn. apply Hn; [lra|apply sign_abs|apply sign_mul].
      * apply Hm. unfold vdot; cbn. transitivity (k * k * (rsign (vz p) * rsign (vz p))); [ring|]. rewrite sign_mul. ring.
Qed.
Print Assumptions C37_safeties.
Example C37_example : box_contains (V3 1 2 3) (V3 0 1 (5 / 2)) = true /\ box_inside (V3 1 2 3) (V3 1 0 0) = kSurface /\ box_inside (V3 1 2 3) (V3 0 0 4) = kOutside /\
  box_safety_out (V3 1 2 3) (V3 0 1 (5 / 2)) = 1 / 2.
Proof.
  assert (box_safety_out (V3 1 2 3) (V3 0 1 (5 / 2)) = 1 / 2) as S.
  { unfold box_safety_out, vmin; cbn. rewrite !(Rabs_right) by lra. unfold Rmin. repeat destruct (Rle_dec _ _); lra. }
  split; [|split; [|split; [|exact S]]].
  - apply C37_consistent. rewrite S. lra.
  - apply C37_consistent. unfold box_safety_in, box_outer, vmax; cbn. rewrite (Rabs_right 1), (Rabs_right 0) by lra. pose proof kHalfTolerance_pos.
    apply Rabs_def1; unfold Rmax; repeat destruct (Rle_dec _ _); lra.
  - apply C37_consistent. unfold box_safety_in, box_outer, vmax; cbn. rewrite (Rabs_right 4), (Rabs_right 0) by lra. pose proof kHalfTolerance_pos. unfold kHalfTolerance, kTolerance in *.
    unfold Rmax; repeat destruct (Rle_dec _ _); lra.
Qed.

(** ** Ray distances: BoxImplementation.h:73-118 *)
(** The kernels replace a direction by [vnonzero d], which differs by 10^-30 in every component; the
    distances are exact for the changed direction, [C38_true_direction] relates the two. *)
Theorem C38_to_out b p d (r := box_to_out b p d) :
  (box_inside b p = kOutside -> r = -1 \/ box_safety_in b p = kHalfTolerance) /\
  (closed b p -> 0 <= r /\ (forall t, 0 <= t <= r -> closed b (along p (vnonzero d) t)) /\ (forall t, r < t -> ~ closed b (along p (vnonzero d) t))) /\
  (interior b p -> 0 < r /\ forall t, 0 <= t < r -> interior b (along p (vnonzero d) t)).
Proof.
  unfold r. rewrite to_out_eq. pose proof kHalfTolerance_pos. split; [|split].
  - intros H0. apply C37_consistent in H0. unfold box_safety_in in *. unfold rgtb. destruct (rltb_spec kHalfTolerance (box_outer b p)); [left; reflexivity|right; lra].
  - intros H0. pose proof (proj2 (outer_closed b p) H0). unfold rgtb. destruct (rltb_spec kHalfTolerance (box_outer b p)); [lra|].
    rewrite <- (along_0 p (vnonzero d)) in H0. apply closed_ray in H0. split; [lra|split]; intros t Ht; rewrite closed_ray; lra.
  - intros H0. pose proof (proj2 (outer_interior b p) H0). unfold rgtb. destruct (rltb_spec kHalfTolerance (box_outer b p)); [lra|].
    rewrite <- (along_0 p (vnonzero d)) in H0. apply interior_ray in H0. split; [lra|]. intros t Ht; rewrite interior_ray; lra.
Qed.
Print Assumptions C38_to_out.
(** A finite DistanceToIn is the first parameter of the closed box, the interior follows it; it is positive
    exactly for points outside the closed box.  With an infinite one, what lies ahead of the point and inside is
    either within half the tolerance along the ray or not deeper than half the tolerance. *)
Theorem C38_to_in inf b p d (r := box_to_in inf b p d) :
  (r <> inf -> (forall t, t < r -> ~ closed b (along p (vnonzero d) t)) /\ closed b (along p (vnonzero d) r) /\
    (exists e, r < e /\ kHalfTolerance < e /\ forall t, r < t < e -> interior b (along p (vnonzero d) t)) /\ (0 < r <-> ~ closed b p)) /\
  (r = inf -> forall t, 0 <= t <= inf -> interior b (along p (vnonzero d) t) -> t < kHalfTolerance \/ box_safety_out b (along p (vnonzero d) t) <= kHalfTolerance).
Proof.
  unfold r. rewrite to_in_eq. unfold rgeb. pose proof (rleb_spec (dist_out b p d) (dist_in b p d)) as A.
  pose proof (rleb_spec (dist_out b p d) kHalfTolerance) as B. set (m := vmin (vmul (vsign d) (vsub (vmul (vsign d) b) p))). pose proof (rleb_spec (Rabs m) kHalfTolerance) as C.
  pose proof kHalfTolerance_pos.
  destruct A as [A|A]; [|destruct B as [B|B]; [|destruct C as [C|C]]]; cbn [orb]; (split; [intros Hr; try (exfalso; apply Hr; reflexivity)|intros Hr t Ht Hi]).
  - apply interior_ray in Hi. lra.
  - apply interior_ray in Hi. lra.
  - right. pose proof (depth_le b p d t (proj1 Ht)). fold m in H0. apply abs_le in C. lra.
  - split; [|split; [|split]].
    + intros t Ht. rewrite closed_ray. lra.
    + rewrite closed_ray. lra.
    + exists (dist_out b p d). split; [lra|split; [lra|]]. intros t Ht. apply interior_ray. lra.
    + rewrite <- (along_0 p (vnonzero d)) at 2. rewrite closed_ray. lra.
  - apply interior_ray in Hi. lra.
Qed.
Print Assumptions C38_to_in.
(** On the ray itself the box grows by 10^-30 per unit of length. *)
Theorem C38_true_direction b p d t : 0 <= t ->
  (closed b (along p (vnonzero d) t) -> closed (wider (t * kTiny) b) (along p d t)) /\ (closed b (along p d t) -> closed (wider (t * kTiny) b) (along p (vnonzero d) t)).
Proof.
  intros Ht. pose proof kTiny_pos. assert (forall x, - (t * kTiny) <= t * nonzero x - t * x <= t * kTiny) as K by (intros x; unfold nonzero; destruct (rltb x 0); nra).
  pose proof (K (vx d)). pose proof (K (vy d)). pose proof (K (vz d)). split; intros (Hx & Hy & Hz); unfold closed, in_box, centred, wider, vneg in *; cbn in *; lra.
Qed.
Print Assumptions C38_true_direction.
(** The statement for points outside within the tolerance is wrong: a point outside a face by a quarter of the
    tolerance, moving along the face, gets a large negative exit distance, although the documentation of the
    interface knows only [-1] for points outside. *)
Theorem C38_to_out_near_refuted : ~ forall b p d, sized b -> vdot d d = 1 -> box_inside b p <> kOutside -> -1 <= box_to_out b p d.
Proof.
  intros H. specialize (H (V3 1 1 1) (V3 0 (1 + kHalfTolerance / 2) 0) (V3 1 0 0)). pose proof kHalfTolerance_pos as Hh. pose proof kTiny_pos as Ht.
  assert (kHalfTolerance < 1) as Hh1 by (unfold kHalfTolerance, kTolerance; lra).
  assert (box_outer (V3 1 1 1) (V3 0 (1 + kHalfTolerance / 2) 0) = kHalfTolerance / 2) as Ho.
  { unfold box_outer, vmax; cbn. rewrite (Rabs_right (1 + _)), (Rabs_right 0) by lra. unfold Rmax; repeat destruct (Rle_dec _ _); lra. }
  assert (box_to_out (V3 1 1 1) (V3 0 (1 + kHalfTolerance / 2) 0) (V3 1 0 0) < -1) as K.
  { rewrite to_out_eq, Ho. unfold rgtb. destruct (rltb_spec kHalfTolerance (kHalfTolerance / 2)); [lra|].
    apply Rle_lt_trans with (tout 1 (1 + kHalfTolerance / 2) 0).
    - unfold dist_out. assert (vmin (V3 (tout 1 0 1) (tout 1 (1 + kHalfTolerance / 2) 0) (tout 1 0 0)) <= vmin (V3 (tout 1 0 1) (tout 1 (1 + kHalfTolerance / 2) 0) (tout 1 0 0))) as K by lra.
      apply vmin_ge in K. cbn in K. cbn. apply K.
    - unfold tout, rsign, nonzero. destruct (rltb_spec 0 0); [lra|]. rewrite Rplus_0_l. assert (kTiny < kHalfTolerance / 2) as L by (unfold kTiny, kHalfTolerance, kTolerance; lra).
      apply Rmult_lt_reg_r with kTiny; [lra|]. replace (_ * (1 / kTiny) * kTiny) with (1 * 1 - (1 + kHalfTolerance / 2)) by (field; lra). lra. }
  assert (-1 <= box_to_out (V3 1 1 1) (V3 0 (1 + kHalfTolerance / 2) 0) (V3 1 0 0)); [apply H|lra].
  - unfold sized; cbn; lra.
  - unfold vdot; cbn; lra.
  - intros E. apply C37_consistent in E. unfold box_safety_in in E. rewrite Ho in E. lra.
Qed.
Print Assumptions C38_to_out_near_refuted.
Example C38_example : 0 < box_to_out (V3 1 2 3) (V3 0 1 0) (V3 0 1 0) /\ box_to_in 1000 (V3 1 2 3) (V3 (-5) 0 0) (V3 1 0 0) <> 1000.
Proof.
  split.
  - apply C38_to_out. unfold interior, in_interior, centred; cbn; lra.
  - pose proof kTiny_pos. intros E. pose proof (proj2 (C38_to_in 1000 (V3 1 2 3) (V3 (-5) 0 0) (V3 1 0 0)) E 5) as K.
    assert (nonzero 1 = 1 + kTiny) as N1 by (unfold nonzero; destruct (rltb_spec 1 0); lra). assert (nonzero 0 = kTiny) as N0 by (unfold nonzero; destruct (rltb_spec 0 0); lra).
    assert (kTiny < / 1000) as Hs by (unfold kTiny; lra).
    assert (along (V3 (-5) 0 0) (vnonzero (V3 1 0 0)) 5 = V3 (5 * kTiny) (5 * kTiny) (5 * kTiny)) as P by (apply v3_eq; cbn; rewrite ?N1, ?N0; lra).
    rewrite P in K.
    destruct K as [K|K]; [lra|unfold interior, in_interior, centred; cbn; lra|unfold kHalfTolerance, kTolerance in K; lra|].
    unfold box_safety_out, vmin in K; cbn in K. rewrite !Rabs_right in K by lra. unfold kHalfTolerance, kTolerance, Rmin in K. repeat destruct (Rle_dec _ _) in K; lra.
Qed.

(** ** Normals: BoxImplementation.h:134-155 *)
(** The normal is a unit vector for every point.  For points within half the tolerance of the surface it is
    valid and the whole box lies behind the plane through the point, up to three tolerances. *)
Theorem C65_normal b p : vdot (fst (box_normal b p)) (fst (box_normal b p)) = 1 /\
  (box_inside b p = kSurface -> snd (box_normal b p) = true) /\
  (snd (box_normal b p) = true -> forall q, closed b q -> vdot (fst (box_normal b p)) (vsub q p) <= 3 * kTolerance).
Proof.
  destruct (normal_shape b p) as (n & X & Y & Z & G & HX & HY & HZ & E). rewrite E. cbn [fst snd]. pose proof kHalfTolerance_pos. unfold rgtb. split; [|split].
  - destruct (rltb_spec 1 (vdot n n)); [apply unit_scale; lra|lra].
  - intros Hs. apply C37_consistent in Hs. unfold box_safety_in in Hs. apply rltb_true. eapply Rle_lt_trans; [|exact Hs].
    assert (vmin (vabs (vsub (vabs p) b)) <= vmin (vabs (vsub (vabs p) b))) as K by lra. apply vmin_ge in K. cbn in K.
    destruct (vmax_attained (vsub (vabs p) b)) as [A|[A|A]]; unfold box_outer; rewrite A; cbn; apply K.
  - intros V q (Qx & Qy & Qz). apply rltb_true in V. unfold centred, vneg in *; cbn in *.
    assert (vx n * (vx q - vx p) <= kTolerance) by (eapply comp_bound; [exact HX|exact V|lra]).
    assert (vy n * (vy q - vy p) <= kTolerance) by (eapply comp_bound; [exact HY|exact V|lra]).
    assert (vz n * (vz q - vz p) <= kTolerance) by (eapply comp_bound; [exact HZ|exact V|lra]).
    assert (vdot n (vsub q p) <= 3 * kTolerance) as K by (unfold vdot; cbn; lra).
    destruct (rltb_spec 1 (vdot n n)) as [L|L]; [|exact K]. pose proof (vmag_sqr n). pose proof (vmag_nonneg n). assert (1 <= vmag n) as Hn by (apply sqr_le_le; [assumption|lra]).
    replace (vdot (vscale (1 / vmag n) n) (vsub q p)) with (vdot n (vsub q p) / vmag n) by (unfold vdot; cbn; field; lra).
    pose proof kTolerance_pos. apply Rmult_le_reg_r with (vmag n); [lra|]. unfold Rdiv. rewrite Rmult_assoc, Rinv_l by lra. rewrite Rmult_1_r. eapply Rle_trans; [exact K|]. rewrite <- (Rmult_1_r (3 * kTolerance)) at 1. apply Rmult_le_compat_l; lra.
Qed.
Print Assumptions C65_normal.
(** [valid] does not mean that the point is on the surface: every point of the plane of a face is accepted. *)
Theorem C65_valid_refuted : ~ forall b p, sized b -> snd (box_normal b p) = true -> box_inside b p = kSurface.
Proof.
  intros H. specialize (H (V3 1 1 1) (V3 1 5 0)). pose proof kHalfTolerance_pos. unfold sized in H; cbn in H.
  assert (box_inside (V3 1 1 1) (V3 1 5 0) = kOutside) as E.
  { apply C37_consistent. unfold box_safety_in, box_outer, vmax; cbn. rewrite (Rabs_right 1), (Rabs_right 5), (Rabs_right 0) by lra. unfold Rmax, kHalfTolerance, kTolerance in *; repeat destruct (Rle_dec _ _); lra. }
  rewrite H in E; [discriminate|lra|]. unfold box_normal; cbn [snd]. apply rltb_true. unfold vabs, vsub; cbn [vx vy vz].
  rewrite (Rabs_right 1), (Rabs_right 5), (Rabs_right 0) by lra. rewrite (Rminus_diag_eq 1 1) by lra. rewrite Rabs_R0.
  assert (vmin (V3 0 (Rabs (5 - 1)) (Rabs (0 - 1))) <= vmin (V3 0 (Rabs (5 - 1)) (Rabs (0 - 1)))) as K by lra. apply vmin_ge in K. cbn [vx vy vz] in K. lra.
Qed.
Print Assumptions C65_valid_refuted.
Example C65_example : box_inside (V3 1 1 1) (V3 1 1 0) = kSurface.
Proof.
  apply C37_consistent. unfold box_safety_in, box_outer, vmax; cbn. rewrite (Rabs_right 1), (Rabs_right 0) by lra. pose proof kHalfTolerance_pos.
  apply Rabs_def1; unfold Rmax; repeat destruct (Rle_dec _ _); lra.
Qed.

(** ** Points on the surface: source/UnplacedBox.cpp:46-73 *)
(** For every outcome of the generator the loop stops inside the array and the point is on the surface; it is
    inside the extent of the box, as every point of the closed box. *)
Theorem C66_sample b u0 u1 u2 u3 : sized b -> -1 <= u0 <= 1 -> -1 <= u1 <= 1 -> -1 <= u2 <= 1 -> -1 <= u3 <= 1 ->
  exists p, box_sample b u0 u1 u2 u3 = Some p /\ surface b p /\ box_inside b p = kSurface.
Proof.
  intros (Bx & By & Bz) H0 H1 H2 H3. unfold box_sample. set (a := vy b * vz b). set (c := vx b * vz b). set (e := vx b * vy b).
  assert (0 <= a /\ 0 <= c /\ 0 <= e) as (Ha & Hc & He) by (unfold a, c, e; repeat split; nra).
  assert (Rabs ((a + c + e) * u0) <= a + c + e) as R by (apply abs_le; nra). set (r := Rabs _) in *.
  assert (forall s, s = 1 \/ s = -1 -> forall k, 0 <= k -> -1 * k <= s * k <= k /\ ~ (-1 * k < s * k < k)) as S by (intros s [-> | ->] k Hk; lra).
  set (dir := if rltb _ 0 then -1 else 1). assert (dir = 1 \/ dir = -1) as D by (unfold dir; destruct (rltb _ 0); auto).
  assert (forall k u, 0 <= k -> -1 <= u <= 1 -> -1 * k <= k * u <= k) as I by (intros k u Hk Hu; nra).
  assert (exists axis x, pick_axis r 0 (a :: c :: e :: nil) = Some (axis, x) /\ (axis = 0 \/ axis = 1 \/ axis = 2)%nat) as (axis & x & -> & Hax).
  { cbn. unfold rgtb. destruct (rltb_spec a r); [|exists 0%nat, r; auto]. destruct (rltb_spec c (r - a)); [|exists 1%nat, (r - a); auto]. destruct (rltb_spec e (r - a - c)); [lra|exists 2%nat, (r - a - c); auto]. }
  assert (forall p, surface b p -> surface b p /\ box_inside b p = kSurface) as L.
  { intros p [P1 P2]. split; [split; assumption|]. apply C37_classes. pose proof kHalfTolerance_pos. rewrite <- outer_lt, <- outer_le. rewrite <- outer_closed in P1. rewrite <- outer_interior in P2. lra. }
  eexists. split; [reflexivity|]. apply L.
  destruct Hax as [-> |[-> | ->]]; cbn; split.
  - repeat split; cbn; try apply I; try assumption; apply (S dir D); assumption.
  - intros (K & _). cbn in K. revert K. apply (S dir D); assumption.
  - repeat split; cbn; try apply I; try assumption; apply (S dir D); assumption.
  - intros (_ & K & _). cbn in K. revert K. apply (S dir D); assumption.
  - repeat split; cbn; try apply I; try assumption; apply (S dir D); assumption.
  - intros (_ & _ & K). cbn in K. revert K. apply (S dir D); assumption.
Qed.
Print Assumptions C66_sample.
Theorem C66_extent b p : closed b p <-> in_box (Box (fst (box_extent b)) (snd (box_extent b))) p.
Proof. reflexivity. Qed.
Print Assumptions C66_extent.
Example C66_example : sized (V3 1 2 3) /\ box_sample (V3 1 2 3) 1 0 0 (/ 2) = Some (V3 0 0 3).
Proof.
  split; [unfold sized; cbn; lra|]. unfold box_sample. cbn [vx vy vz]. replace ((2 * 3 + 1 * 3 + 1 * 2) * 1) with 11 by lra. rewrite (Rabs_right 11) by lra. cbn [pick_axis]. unfold rgtb.
  destruct (rltb_spec (2 * 3) 11); [|lra]. destruct (rltb_spec (1 * 3) (11 - 2 * 3)); [|lra]. destruct (rltb_spec (1 * 2) (11 - 2 * 3 - 1 * 3)); [lra|]. destruct (rltb_spec 11 0); [lra|].
  cbn. do 2 f_equal; lra.
Qed.
