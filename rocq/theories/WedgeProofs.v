(** Angles, sectors and the phi wedge. *)
From Coq Require Import Reals Lra Lia Bool.
From stdpp Require Import base tactics.
From Verif Require Import Real3 BoxModel ConeModel ConeSpec WedgeModel WedgeSpec.
Local Open Scope R_scope.

(** * Polar coordinates *)
Lemma unit_angle c s : c * c + s * s = 1 -> exists t, 0 <= t < 2 * PI /\ c = cos t /\ s = sin t.
Proof.
  intros H. pose proof PI_RGT_0 as HPI. assert (Hc : -1 <= c <= 1) by nra. pose proof (acos_bound c) as Hb.
  assert (Hs : sin (acos c) = Rabs s).
  { rewrite sin_acos by lra. replace (1 - c²) with (s²) by (unfold Rsqr; lra). apply sqrt_Rsqr_abs. }
  destruct (Rle_dec 0 s) as [Hp|Hn].
  - exists (acos c). split; [lra|]. split; [symmetry; apply cos_acos; lra|]. rewrite Hs. symmetry. apply Rabs_pos_eq. lra.
  - assert (Hne : acos c <> 0). { intros E. rewrite E, sin_0 in Hs. rewrite Rabs_left in Hs; lra. }
    exists (2 * PI - acos c). split; [lra|]. split.
    + rewrite cos_minus, cos_2PI, sin_2PI, cos_acos by lra. ring.
    + rewrite sin_minus, cos_2PI, sin_2PI, Hs. rewrite Rabs_left by lra. ring.
Qed.
Lemma polar s x y : exists r t, 0 <= r /\ 0 <= t < 2 * PI /\ x = r * cos (s + t) /\ y = r * sin (s + t).
Proof.
  pose proof PI_RGT_0. set (r := sqrt (x * x + y * y)). assert (Hn : 0 <= x * x + y * y) by nra. pose proof (sqrt_sqrt _ Hn) as Hr. fold r in Hr.
  assert (Hr0 : 0 <= r) by apply sqrt_pos. destruct (Req_dec r 0) as [E|E].
  - exists 0, 0. rewrite E in Hr. assert (x = 0) by nra. assert (y = 0) by nra. subst. repeat split; try lra.
  - destruct (unit_angle ((x * cos s + y * sin s) / r) ((y * cos s - x * sin s) / r)) as (t & Ht & Hc & Hs).
    + pose proof (sin2_cos2 s) as Hsc. unfold Rsqr in Hsc.
      replace ((x * cos s + y * sin s) / r * ((x * cos s + y * sin s) / r) + (y * cos s - x * sin s) / r * ((y * cos s - x * sin s) / r))
        with ((x * x + y * y) * (sin s * sin s + cos s * cos s) / (r * r)) by (field; lra).
      rewrite Hsc, <- Hr. field. lra.
    + exists r, t. split; [lra|]. split; [lra|]. pose proof (sin2_cos2 s) as Hsc. unfold Rsqr in Hsc. rewrite cos_plus, sin_plus, <- Hc, <- Hs. split.
      * replace (r * (cos s * ((x * cos s + y * sin s) / r) - sin s * ((y * cos s - x * sin s) / r))) with (x * (sin s * sin s + cos s * cos s)) by (field; lra). rewrite Hsc. ring.
      * replace (r * (sin s * ((x * cos s + y * sin s) / r) + cos s * ((y * cos s - x * sin s) / r))) with (y * (sin s * sin s + cos s * cos s)) by (field; lra). rewrite Hsc. ring.
Qed.
Lemma side_polar phi psi r : side phi (r * cos psi) (r * sin psi) = r * sin (psi - phi).
Proof. unfold side. rewrite sin_minus. ring. Qed.

(** * Sectors by their sides *)
(** The test of the code, with the tolerance left out. *)
Definition by_sides (s d x y : R) : Prop :=
  (d < PI -> 0 <= side s x y /\ side (s + d) x y <= 0) /\ (PI <= d -> 0 <= side s x y \/ side (s + d) x y <= 0).
Lemma sector_sides s d x y : 0 < d <= 2 * PI -> sector s d x y <-> by_sides s d x y.
Proof.
  intros Hd. pose proof PI_RGT_0 as HPI. split.
  - intros (phi & Hphi & r & Hr & -> & ->). split; intros H; rewrite !side_polar.
    + assert (0 <= sin (phi - s)) by (apply sin_ge_0; lra). assert (0 <= sin (s + d - phi)) by (apply sin_ge_0; lra).
      replace (phi - (s + d)) with (- (s + d - phi)) by ring. rewrite sin_neg. split; nra.
    + replace (phi - (s + d)) with (- (s + d - phi)) by ring. rewrite sin_neg. destruct (Rle_dec (phi - s) PI).
      * left. assert (0 <= sin (phi - s)) by (apply sin_ge_0; lra). nra.
      * right. assert (0 <= sin (s + d - phi)) by (apply sin_ge_0; lra). nra.
  - intros [H1 H2]. destruct (polar s x y) as (r & t & Hr & Ht & -> & ->). rewrite !side_polar in H1, H2.
    replace (s + t - s) with t in * by ring. replace (s + t - (s + d)) with (- (d - t)) in * by ring. rewrite sin_neg in H1, H2.
    destruct (Req_dec r 0) as [->|Hr0].
    + exists s. split; [lra|]. exists 0. split; [lra|]. split; ring.
    + exists (s + t). split; [|exists r; split; [lra|]; split; reflexivity].
      split; [lra|]. destruct (Rle_dec t d) as [Hle|Hgt]; [lra|exfalso].
      destruct (Rlt_dec d PI) as [Hlt|Hge].
      * destruct (H1 Hlt) as [A B]. destruct (Rle_dec t PI) as [Htp|Htp].
        -- assert (sin (d - t) < 0) by (apply sin_lt_0_var; lra). nra.
        -- assert (sin t < 0) by (apply sin_lt_0; lra). nra.
      * destruct (H2 ltac:(lra)) as [A|B].
        -- assert (sin t < 0) by (apply sin_lt_0; lra). nra.
        -- assert (sin (d - t) < 0) by (apply sin_lt_0_var; lra). nra.
Qed.
(** The checks of the kernel are the sides. *)
Lemma start_side d s x y : - x * wd_a1y (mk_wedge d s) + y * wd_a1x (mk_wedge d s) = side s x y.
Proof. unfold side, mk_wedge; cbn. ring. Qed.
Lemma end_side d s x y : - wd_a2x (mk_wedge d s) * y + wd_a2y (mk_wedge d s) * x = - side (s + d) x y.
Proof. unfold side, mk_wedge; cbn. ring. Qed.
Lemma n1_side d s x y : x * wd_n1x (mk_wedge d s) + y * wd_n1y (mk_wedge d s) = side s x y.
Proof. unfold side, mk_wedge; cbn. ring. Qed.
Lemma n2_side d s x y : x * wd_n2x (mk_wedge d s) + y * wd_n2y (mk_wedge d s) = - side (s + d) x y.
Proof. unfold side, mk_wedge; cbn. ring. Qed.
Lemma kernel_out d s x y : snd (wedge_kernel (mk_wedge d s) false x y) = false <-> by_sides s d x y.
Proof.
  unfold wedge_kernel. cbn zeta. cbn [snd]. rewrite start_side, end_side. change (wd_dphi (mk_wedge d s)) with d. unfold by_sides.
  destruct (rltb_spec d PI) as [Hd|Hd]; destruct (rltb_spec (side s x y) 0) as [H1|H1]; destruct (rltb_spec (- side (s + d) x y) 0) as [H2|H2]; cbn;
    (split; [intros E; try discriminate E; split; intros; try lra|intros [A B]; try reflexivity; try (specialize (A Hd)); try (specialize (B ltac:(lra))); exfalso; lra]).
Qed.
Lemma wedge_contains_sector d s x y : 0 < d <= 2 * PI -> wedge_contains (mk_wedge d s) x y = true <-> sector s d x y.
Proof. intros Hd. rewrite sector_sides by lra. rewrite <- kernel_out. unfold wedge_contains. rewrite negb_true_iff. reflexivity. Qed.

(** * Distances *)
Lemma side_lipschitz phi x y x' y' : side phi x y - side phi x' y' <= dist2 x y x' y'.
Proof.
  unfold dist2, side. set (a := x - x'). set (b := y - y'). replace (y * cos phi - x * sin phi - (y' * cos phi - x' * sin phi)) with (b * cos phi - a * sin phi) by (unfold a, b; ring).
  destruct (Rle_dec (b * cos phi - a * sin phi) 0); [eapply Rle_trans; [eassumption|apply sqrt_pos]|].
  rewrite <- (sqrt_square (b * cos phi - a * sin phi)) by lra. apply sqrt_le_1_alt. pose proof (sin2_cos2 phi) as H. unfold Rsqr in H.
  assert (Hs : (b * cos phi - a * sin phi) * (b * cos phi - a * sin phi) + (a * cos phi + b * sin phi) * (a * cos phi + b * sin phi) = (a * a + b * b) * (sin phi * sin phi + cos phi * cos phi)) by ring.
  rewrite H in Hs. pose proof (Rle_0_sqr (a * cos phi + b * sin phi)) as Hq. unfold Rsqr in Hq. lra.
Qed.
Lemma side_lipschitz' phi x y x' y' : side phi x' y' - side phi x y <= dist2 x y x' y'.
Proof. replace (dist2 x y x' y') with (dist2 x' y' x y); [apply side_lipschitz|]. unfold dist2. f_equal. ring. Qed.
Lemma safety_in_le d s x y x' y' : 0 < d <= 2 * PI -> sector s d x' y' -> wedge_safety_in (mk_wedge d s) x y <= dist2 x y x' y'.
Proof.
  intros Hd Hq. apply sector_sides in Hq; [|lra]. destruct Hq as [H1 H2]. unfold wedge_safety_in. rewrite n1_side, n2_side. change (wd_dphi (mk_wedge d s)) with d.
  pose proof (side_lipschitz' s x y x' y'). pose proof (side_lipschitz (s + d) x y x' y'). destruct (rltb_spec d PI) as [Hp|Hp].
  - destruct (H1 Hp). apply Rmax_lub; lra.
  - destruct (H2 ltac:(lra)); [eapply Rle_trans; [apply Rmin_l|]; lra|eapply Rle_trans; [apply Rmin_r|]; lra].
Qed.
Lemma safety_out_le d s x y x' y' : 0 < d <= 2 * PI -> ~ sector s d x' y' -> wedge_safety_out (mk_wedge d s) x y <= dist2 x y x' y'.
Proof.
  intros Hd Hq. rewrite sector_sides in Hq by lra. unfold wedge_safety_out. rewrite n1_side, n2_side. change (wd_dphi (mk_wedge d s)) with d.
  pose proof (side_lipschitz s x y x' y'). pose proof (side_lipschitz' (s + d) x y x' y'). destruct (rltb_spec d PI) as [Hp|Hp].
  - destruct (Rle_dec 0 (side s x' y')) as [A|A]; [|eapply Rle_trans; [apply Rmin_l|]; lra].
    destruct (Rle_dec (side (s + d) x' y') 0) as [B|B]; [|eapply Rle_trans; [apply Rmin_r|]; lra]. exfalso. apply Hq. split; intros; lra.
  - assert (side s x' y' < 0 /\ 0 < side (s + d) x' y') as [A B].
    { split; apply Rnot_le_lt; intros K; apply Hq; (split; intros; [lra|]); [left|right]; lra. }
    apply Rmax_lub; lra.
Qed.
(** For at most half a turn the outward safety is the distance to the outside, and no less. *)
Lemma side_shift phi k x y : side phi (x + k * sin phi) (y - k * cos phi) = side phi x y - k.
Proof. unfold side. pose proof (sin2_cos2 phi) as H. unfold Rsqr in H. replace ((y - k * cos phi) * cos phi - (x + k * sin phi) * sin phi) with (y * cos phi - x * sin phi - k * (sin phi * sin phi + cos phi * cos phi)) by ring. rewrite H. ring. Qed.
Lemma dist_shift phi k x y : 0 <= k -> dist2 x y (x + k * sin phi) (y - k * cos phi) = k.
Proof.
  intros Hk. unfold dist2. pose proof (sin2_cos2 phi) as H. unfold Rsqr in H.
  replace ((x - (x + k * sin phi)) * (x - (x + k * sin phi)) + (y - (y - k * cos phi)) * (y - (y - k * cos phi))) with (k * k * (sin phi * sin phi + cos phi * cos phi)) by ring.
  rewrite H, Rmult_1_r. by apply sqrt_square.
Qed.
Lemma dist_shift' phi k x y : 0 <= k -> dist2 x y (x - k * sin phi) (y + k * cos phi) = k.
Proof.
  intros Hk. transitivity (dist2 x y (x + k * sin phi) (y - k * cos phi)); [unfold dist2; f_equal; ring|by apply dist_shift].
Qed.
Lemma side_shift' phi k x y : side phi (x - k * sin phi) (y + k * cos phi) = side phi x y + k.
Proof. replace (x - k * sin phi) with (x + - k * sin phi) by ring. replace (y + k * cos phi) with (y - - k * cos phi) by ring. rewrite side_shift. ring. Qed.
Lemma safety_out_tight d s x y e : 0 < d <= PI -> sector s d x y -> 0 < e ->
  exists x' y', ~ sector s d x' y' /\ dist2 x y x' y' < wedge_safety_out (mk_wedge d s) x y + e.
Proof.
  intros Hd Hp He. pose proof PI_RGT_0. apply sector_sides in Hp; [|lra]. destruct Hp as [H1 H2].
  unfold wedge_safety_out. rewrite n1_side, n2_side. change (wd_dphi (mk_wedge d s)) with d.
  destruct (rltb_spec d PI) as [Hl|Hl].
  - destruct (H1 Hl) as [A B]. destruct (Rle_dec (side s x y) (- side (s + d) x y)).
    + exists (x + (side s x y + e / 2) * sin s), (y - (side s x y + e / 2) * cos s). rewrite dist_shift by lra. rewrite Rmin_left by lra. split; [|lra].
      rewrite sector_sides by lra. intros [K _]. destruct (K Hl) as [K1 _]. rewrite side_shift in K1. lra.
    + exists (x - (- side (s + d) x y + e / 2) * sin (s + d)), (y + (- side (s + d) x y + e / 2) * cos (s + d)). rewrite dist_shift' by lra. rewrite Rmin_right by lra. split; [|lra].
      rewrite sector_sides by lra. intros [K _]. destruct (K Hl) as [_ K1]. rewrite side_shift' in K1. lra.
  - assert (d = PI) by lra. subst d.
    assert (Hsd : forall x y, side (s + PI) x y = - side s x y) by (intros; unfold side; rewrite neg_cos, neg_sin; ring).
    rewrite Hsd, Ropp_involutive, Rmax_left by lra. setoid_rewrite Hsd in H2. assert (0 <= side s x y) by (destruct (H2 ltac:(lra)); lra).
    exists (x + (side s x y + e / 2) * sin s), (y - (side s x y + e / 2) * cos s). rewrite dist_shift by lra. split; [|lra].
    rewrite sector_sides by lra. intros [_ K]. rewrite Hsd in K. rewrite side_shift in K. destruct (K ltac:(lra)); lra.
Qed.
(** The inward safety is the distance to the line of a side, so no less than the distance to both lines. *)

(** * Surfaces *)
Lemma on_surface_spec phi x y sgn : sgn * sgn = 1 ->
  on_surface (cos phi) (sin phi) (sgn * - sin phi) (sgn * cos phi) x y = true <-> 0 <= ahead phi x y /\ Rabs (side phi x y) < kTolerance.
Proof.
  intros Hs. unfold on_surface. replace (sgn * - sin phi * x + sgn * cos phi * y) with (sgn * side phi x y) by (unfold side; ring).
  replace (cos phi * x + sin phi * y) with (ahead phi x y) by (unfold ahead; ring). rewrite Rabs_mult.
  assert (Ha : Rabs sgn = 1). { assert (sgn = 1 \/ sgn = -1) as [->| ->] by (destruct (Rle_dec 0 sgn); [left|right]; nra). apply Rabs_R1. rewrite Rabs_left; lra. }
  rewrite Ha, Rmult_1_l. destruct (rgeb_spec (ahead phi x y) 0), (rltb_spec (Rabs (side phi x y)) kTolerance); cbn; split; intros; try done; try discriminate; lra.
Qed.
(** A point is near the half line exactly then, when it is not behind the origin. *)
Lemma near_half_line phi x y : 0 <= ahead phi x y -> forall t, Rabs (side phi x y) < t <-> exists x' y', half_line phi x' y' /\ dist2 x y x' y' < t.
Proof.
  intros Ha t. split.
  - intros Ht. exists (ahead phi x y * cos phi), (ahead phi x y * sin phi). split; [exists (ahead phi x y); split; [lra|split; reflexivity]|].
    eapply Rle_lt_trans; [|exact Ht]. apply Req_le. unfold dist2. rewrite <- sqrt_Rsqr_abs. f_equal. unfold Rsqr, side, ahead.
    pose proof (sin2_cos2 phi) as H. unfold Rsqr in H. set (c := cos phi) in *. set (n := sin phi) in *.
    assert (E : (x - (x * c + y * n) * c) * (x - (x * c + y * n) * c) + (y - (x * c + y * n) * n) * (y - (x * c + y * n) * n) - (y * c - x * n) * (y * c - x * n)
      = (1 - (n * n + c * c)) * (x * x + y * y - (x * c + y * n) * (x * c + y * n))) by ring. rewrite H in E. lra.
  - intros (x' & y' & (r & Hr & -> & ->) & Hd). eapply Rle_lt_trans; [|exact Hd]. assert (H0 : side phi (r * cos phi) (r * sin phi) = 0) by (unfold side; ring).
    pose proof (side_lipschitz phi x y (r * cos phi) (r * sin phi)). pose proof (side_lipschitz' phi x y (r * cos phi) (r * sin phi)). apply Rabs_le. lra.
Qed.
