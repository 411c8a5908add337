(** Proofs about the bounding box kernels. *)
From Coq Require Import Reals Lra Bool.
From Verif Require Import Real3 AABBModel AABBSpec AABBProofs ABBoxModel.
Local Open Scope R_scope.

Lemma slab_sign lo hi p d : d <> 0 -> lo <= hi ->
  (corner (rltb (1 / d) 0) lo hi - p) * (1 / d) = (let t0 := (lo - p) * (1 / d) in let t1 := (hi - p) * (1 / d) in if rgtb t0 t1 then t1 else t0) /\
  (corner (negb (rltb (1 / d) 0)) lo hi - p) * (1 / d) = (let t0 := (lo - p) * (1 / d) in let t1 := (hi - p) * (1 / d) in if rgtb t0 t1 then t0 else t1).
Proof.
  intros Hd H. set (i := 1 / d). cbv zeta. destruct (rltb_spec i 0) as [Hi|Hi]; cbn [corner negb].
  - assert ((hi - p) * i <= (lo - p) * i). { assert (0 <= (hi - lo) * (- i)) by (apply Rmult_le_pos; lra). lra. }
    destruct (rgtb_spec ((lo - p) * i) ((hi - p) * i)); split; try reflexivity; lra.
  - assert ((lo - p) * i <= (hi - p) * i). { assert (0 <= (hi - lo) * i) by (apply Rmult_le_pos; lra). lra. }
    destruct (rgtb_spec ((lo - p) * i) ((hi - p) * i)); split; try reflexivity; lra.
Qed.
(** The kernel computes the entry parameter. *)
Lemma kernel2_eq inf b p d t0 t1 : no_zero d -> proper b ->
  kernel2 inf b p (vinv d) t0 t1 =
  (let e := entry_exit b p (vinv d) in
   if rleb (fst e) (snd e) && (rleb (fst e) (t1 + kTolerance) && rgtb (snd e) (t0 - kTolerance)) then fst e else inf).
Proof.
  intros (Dx & Dy & Dz) (Px & Py & Pz). unfold kernel2, entry_exit. cbn [vinv vx vy vz vmul vsub fst snd].
  destruct (slab_sign _ _ (vx p) _ Dx Px) as [-> ->]. destruct (slab_sign _ _ (vy p) _ Dy Py) as [-> ->]. destruct (slab_sign _ _ (vz p) _ Dz Pz) as [-> ->].
  cbv zeta.
  assert (forall lo hi q c, c <> 0 -> lo <= hi -> (if rgtb ((lo - q) * (1 / c)) ((hi - q) * (1 / c)) then (hi - q) * (1 / c) else (lo - q) * (1 / c)) <=
    (if rgtb ((lo - q) * (1 / c)) ((hi - q) * (1 / c)) then (lo - q) * (1 / c) else (hi - q) * (1 / c))) as O.
  { intros lo hi q c Hc H. destruct (rgtb_spec ((lo - q) * (1 / c)) ((hi - q) * (1 / c))); lra. }
  pose proof (O _ _ (vx p) _ Dx Px) as Ox. pose proof (O _ _ (vy p) _ Dy Py) as Oy. pose proof (O _ _ (vz p) _ Dz Pz) as Oz. clear O.
  set (x0 := (vx (bmin b) - vx p) * (1 / vx d)) in *. set (x1 := (vx (bmax b) - vx p) * (1 / vx d)) in *.
  set (ax := if rgtb x0 x1 then x1 else x0) in *. set (bx := if rgtb x0 x1 then x0 else x1) in *.
  set (y0 := (vy (bmin b) - vy p) * (1 / vy d)) in *. set (y1 := (vy (bmax b) - vy p) * (1 / vy d)) in *.
  set (ay := if rgtb y0 y1 then y1 else y0) in *. set (bY := if rgtb y0 y1 then y0 else y1) in *.
  set (z0 := (vz (bmin b) - vz p) * (1 / vz d)) in *. set (z1 := (vz (bmax b) - vz p) * (1 / vz d)) in *.
  set (az := if rgtb z0 z1 then z1 else z0) in *. set (bz := if rgtb z0 z1 then z0 else z1) in *.
  clearbody ax bx ay bY az bz. unfold vmax, vmin. cbn [vx vy vz].
  assert (Rmax ax ay <= Rmin bx bY -> Rmax ax ay <= bx /\ Rmax ax ay <= bY) as _ by (intros; split; eapply Rle_trans; eauto using Rmin_l, Rmin_r).
  destruct (rgtb_spec ax bY); [destruct (rleb_spec (Rmax (Rmax ax ay) az) (Rmin (Rmin bx bY) bz)) as [K|K]; [|reflexivity]; exfalso;
    pose proof (Rmax_l (Rmax ax ay) az); pose proof (Rmax_l ax ay); pose proof (Rmin_l (Rmin bx bY) bz); pose proof (Rmin_r bx bY); lra|].
  destruct (rgtb_spec ay bx); [destruct (rleb_spec (Rmax (Rmax ax ay) az) (Rmin (Rmin bx bY) bz)) as [K|K]; [|reflexivity]; exfalso;
    pose proof (Rmax_l (Rmax ax ay) az); pose proof (Rmax_r ax ay); pose proof (Rmin_l (Rmin bx bY) bz); pose proof (Rmin_l bx bY); lra|].
  destruct (rgtb_spec (Rmax ax ay) bz); cbn [orb]; [destruct (rleb_spec (Rmax (Rmax ax ay) az) (Rmin (Rmin bx bY) bz)) as [K|K]; [|reflexivity]; exfalso;
    pose proof (Rmax_l (Rmax ax ay) az); pose proof (Rmin_r (Rmin bx bY) bz); lra|].
  destruct (rgtb_spec az (Rmin bx bY)); [destruct (rleb_spec (Rmax (Rmax ax ay) az) (Rmin (Rmin bx bY) bz)) as [K|K]; [|reflexivity]; exfalso;
    pose proof (Rmax_r (Rmax ax ay) az); pose proof (Rmin_l (Rmin bx bY) bz); lra|].
  destruct (rleb_spec (Rmax (Rmax ax ay) az) (Rmin (Rmin bx bY) bz)) as [K|K].
  - cbn [andb]. destruct (rleb _ (t1 + kTolerance) && rgtb _ _); reflexivity.
  - exfalso. apply K. pose proof (Rmin_l bx bY). pose proof (Rmin_r bx bY). pose proof (Rmax_l ax ay). pose proof (Rmax_r ax ay). apply Rmin_glb; apply Rmax_lub; try apply Rmax_lub; try apply Rmin_glb; lra.
Qed.
Lemma kernel2_hit inf b p d t0 t1 t : no_zero d -> in_box b (along p d t) -> t0 <= t <= t1 ->
  kernel2 inf b p (vinv d) t0 t1 = fst (entry_exit b p (vinv d)) /\ fst (entry_exit b p (vinv d)) <= t.
Proof.
  intros Hd H Ht. assert (proper b) as Hp by (eapply in_box_proper; eauto). rewrite kernel2_eq by auto. apply (interval b p d t) in H; auto. cbv zeta.
  pose proof kTolerance_pos. split; [|lra]. destruct (rleb_spec (fst (entry_exit b p (vinv d))) (snd (entry_exit b p (vinv d)))); [|lra].
  destruct (rleb_spec (fst (entry_exit b p (vinv d))) (t1 + kTolerance)); [|lra].
  destruct (rgtb_spec (snd (entry_exit b p (vinv d))) (t0 - kTolerance)); [reflexivity|lra].
Qed.
(** A hit means that the line really meets the box. *)
Lemma kernel2_sound inf b p d t0 t1 : no_zero d -> proper b -> kernel2 inf b p (vinv d) t0 t1 <> inf ->
  let t := kernel2 inf b p (vinv d) t0 t1 in in_box b (along p d t) /\ t <= t1 + kTolerance.
Proof.
  intros Hd Hp. cbv zeta. rewrite kernel2_eq by auto. cbv zeta. destruct (rleb_spec (fst (entry_exit b p (vinv d))) (snd (entry_exit b p (vinv d)))); [|intros []; reflexivity].
  destruct (rleb_spec (fst (entry_exit b p (vinv d))) (t1 + kTolerance)); [|intros []; reflexivity].
  destruct (rgtb_spec (snd (entry_exit b p (vinv d))) (t0 - kTolerance)); [|intros []; reflexivity].
  cbn [andb]. intros _. split; [|auto]. apply interval; auto. lra.
Qed.

(** Safeties. *)
Lemma ab_safeties_eq b p : ab_safeties b p =
  V3 (Rmax (vx (bmin b) - vx p) (vx p - vx (bmax b))) (Rmax (vy (bmin b) - vy p) (vy p - vy (bmax b))) (Rmax (vz (bmin b) - vz p) (vz p - vz (bmax b))).
Proof. unfold ab_safeties, vsub, vadd, vabs, vscale. cbn [vx vy vz]. rewrite !slab_safety. reflexivity. Qed.
Lemma axis_near lo hi p q : lo <= q <= hi -> let s := Rmax (lo - p) (p - hi) in (if rgtb s 0 then s * s else 0) <= (p - q) * (p - q).
Proof.
  intros H. cbv zeta. assert (0 <= (p - q) * (p - q)) by (pose proof (Rle_0_sqr (p - q)); unfold Rsqr in *; lra).
  destruct (rgtb_spec (Rmax (lo - p) (p - hi)) 0) as [K|K]; [|auto].
  unfold Rmax in *. destruct (Rle_dec (lo - p) (p - hi)); nra.
Qed.
Lemma vdist_sqr p q : vdist p q * vdist p q = (vx p - vx q) * (vx p - vx q) + (vy p - vy q) * (vy p - vy q) + (vz p - vz q) * (vz p - vz q).
Proof. unfold vdist, vmag. rewrite sqrt_sqrt by apply vdot_self_nonneg. reflexivity. Qed.
Lemma ab_safety_lower b p q : in_box b q -> ab_safety_sqr b p <= vdist p q * vdist p q.
Proof.
  intros (Hx & Hy & Hz). unfold ab_safety_sqr. rewrite ab_safeties_eq. cbv zeta. cbn [vx vy vz].
  destruct (negb _) eqn:E.
  - assert (0 <= vdist p q * vdist p q) by (pose proof (Rle_0_sqr (vdist p q)); unfold Rsqr in *; lra).
    match goal with |- - ?m * ?m <= _ => assert (0 <= m * m) by (pose proof (Rle_0_sqr m); unfold Rsqr in *; lra) end. lra.
  - rewrite vdist_sqr. pose proof (axis_near _ _ (vx p) _ Hx). pose proof (axis_near _ _ (vy p) _ Hy). pose proof (axis_near _ _ (vz p) _ Hz). cbv zeta in *. lra.
Qed.
Lemma axis_attained lo hi p : lo <= hi -> exists q, lo <= q <= hi /\ (let s := Rmax (lo - p) (p - hi) in (if rgtb s 0 then s * s else 0) = (p - q) * (p - q)).
Proof.
  intros H. destruct (Rle_or_lt p lo); [|destruct (Rle_or_lt hi p)].
  - exists lo. split; [lra|]. cbv zeta. rewrite Rmax_left by lra. destruct (rgtb_spec (lo - p) 0); [ring|]. assert (p = lo) as -> by lra. ring.
  - exists hi. split; [lra|]. cbv zeta. rewrite Rmax_right by lra. destruct (rgtb_spec (p - hi) 0); [ring|]. assert (p = hi) as -> by lra. ring.
  - exists p. split; [lra|]. cbv zeta. destruct (rgtb_spec (Rmax (lo - p) (p - hi)) 0) as [K|K]; [|ring]. exfalso. revert K. unfold Rmax. destruct (Rle_dec _ _); lra.
Qed.
Lemma ab_safety_attained b p : proper b -> 0 < ab_safety_sqr b p -> exists q, in_box b q /\ ab_safety_sqr b p = vdist p q * vdist p q.
Proof.
  intros (Hx & Hy & Hz). unfold ab_safety_sqr. rewrite ab_safeties_eq. cbv zeta. cbn [vx vy vz]. destruct (negb _) eqn:E.
  - match goal with |- 0 < - ?m * ?m -> _ => assert (0 <= m * m) by (pose proof (Rle_0_sqr m); unfold Rsqr in *; lra) end. lra.
  - intros _. destruct (axis_attained _ _ (vx p) Hx) as (x & X1 & X2). destruct (axis_attained _ _ (vy p) Hy) as (y & Y1 & Y2). destruct (axis_attained _ _ (vz p) Hz) as (z & Z1 & Z2).
    exists (V3 x y z). split; [repeat split; cbn; lra|]. rewrite vdist_sqr. cbn [vx vy vz]. cbv zeta in *. lra.
Qed.
Lemma axis_far lo hi p q : lo <= q <= hi -> (p - q) * (p - q) <= (Rabs (p - 1 / 2 * (hi + lo)) + 1 / 2 * (hi - lo)) * (Rabs (p - 1 / 2 * (hi + lo)) + 1 / 2 * (hi - lo)).
Proof.
  intros H. pose proof (Rabs_pos (p - 1 / 2 * (hi + lo))). assert (Rabs (p - q) <= Rabs (p - 1 / 2 * (hi + lo)) + 1 / 2 * (hi - lo)) as K.
  { apply Rabs_le. pose proof (Rle_abs (p - 1 / 2 * (hi + lo))). pose proof (Rle_abs (- (p - 1 / 2 * (hi + lo)))). rewrite Rabs_Ropp in *. lra. }
  replace ((p - q) * (p - q)) with (Rabs (p - q) * Rabs (p - q)) by (rewrite <- Rabs_mult; apply Rabs_pos_eq; pose proof (Rle_0_sqr (p - q)); unfold Rsqr in *; lra).
  apply Rmult_le_compat; auto using Rabs_pos.
Qed.
Lemma ab_safety_upper b p q : in_box b q -> vdist p q * vdist p q <= ab_safety_max_sqr b p.
Proof.
  intros (Hx & Hy & Hz). rewrite vdist_sqr. unfold ab_safety_max_sqr, vdot, vadd, vabs, vsub, vscale. cbn [vx vy vz].
  pose proof (axis_far _ _ (vx p) _ Hx). pose proof (axis_far _ _ (vy p) _ Hy). pose proof (axis_far _ _ (vz p) _ Hz). lra.
Qed.
(** strictly inside the box the upper limit is not reached *)
Lemma axis_far_strict lo hi p q : lo < q < hi -> (p - q) * (p - q) < (Rabs (p - 1 / 2 * (hi + lo)) + 1 / 2 * (hi - lo)) * (Rabs (p - 1 / 2 * (hi + lo)) + 1 / 2 * (hi - lo)).
Proof.
  intros H. pose proof (Rabs_pos (p - 1 / 2 * (hi + lo))). assert (Rabs (p - q) < Rabs (p - 1 / 2 * (hi + lo)) + 1 / 2 * (hi - lo)) as K.
  { apply Rabs_def1; pose proof (Rle_abs (p - 1 / 2 * (hi + lo))); pose proof (Rle_abs (- (p - 1 / 2 * (hi + lo)))); rewrite Rabs_Ropp in *; lra. }
  replace ((p - q) * (p - q)) with (Rabs (p - q) * Rabs (p - q)) by (rewrite <- Rabs_mult; apply Rabs_pos_eq; pose proof (Rle_0_sqr (p - q)); unfold Rsqr in *; lra).
  apply Rmult_le_0_lt_compat; auto using Rabs_pos.
Qed.
Lemma ab_safety_upper_strict b p q : in_interior b q -> vdist p q * vdist p q < ab_safety_max_sqr b p.
Proof.
  intros (Hx & Hy & Hz). rewrite vdist_sqr. unfold ab_safety_max_sqr, vdot, vadd, vabs, vsub, vscale. cbn [vx vy vz].
  pose proof (axis_far_strict _ _ (vx p) _ Hx). pose proof (axis_far_strict _ _ (vy p) _ Hy). pose proof (axis_far_strict _ _ (vz p) _ Hz). lra.
Qed.
