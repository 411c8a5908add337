(** Scaled shapes: proofs. *)
From Coq Require Import Reals Lra Lia Bool.
From stdpp Require Import base tactics.
From Verif Require Import Real3 BoxModel OrbSpec ScaledModel ScaledSpec.
Local Open Scope R_scope.

Section scale.
Variable k : v3.
Hypothesis Hk : proper k.
Let K := update k.
Lemma there_back p : inverse_transform K (transform K p) = p.
Proof using Hk. destruct Hk as (A & B & C). apply v3_eq; cbn; field; done. Qed.
Lemma back_there p : transform K (inverse_transform K p) = p.
Proof using Hk. destruct Hk as (A & B & C). apply v3_eq; cbn; field; done. Qed.
Lemma scaled_iff (S : v3 -> Prop) p : scaled k S p <-> S (transform K p).
Proof using Hk.
  split.
  - intros (q & Hq & ->). replace (transform K _) with q; [done|]. rewrite <- (back_there q) at 1. f_equal. apply v3_eq; cbn; ring.
  - intros H. exists (transform K p). split; [done|]. rewrite <- (there_back p) at 1. apply v3_eq; cbn; ring.
Qed.
Lemma transform_zero d : transform K d = vzero -> d = vzero.
Proof using Hk. intros E. rewrite <- (there_back d), E. apply v3_eq; cbn; ring. Qed.
Lemma local_length d : unit d -> 0 < vmag (transform K d).
Proof using Hk.
  intros Hd. destruct (vmag_nonneg (transform K d)) as [H|H]; [done|exfalso].
  assert (E : transform K d = vzero).
  { pose proof (vmag_sqr (transform K d)) as Q. rewrite <- H in Q. unfold vdot in Q. set (v := transform K d) in *.
    assert (vx v * vx v = 0 /\ vy v * vy v = 0 /\ vz v * vz v = 0) as (A & B & C) by nra. apply v3_eq; cbn; apply Rsqr_0_uniq; done. }
  apply transform_zero in E. unfold unit in Hd. rewrite E in Hd. unfold vdot in Hd. cbn in Hd. lra.
Qed.
Lemma normalize_unit v : 0 < vmag v -> unit (normalize v).
Proof using.
  intros Hv. unfold unit. rewrite <- vmag_sqr. unfold normalize. rewrite vmag_scale. rewrite Rabs_pos_eq; [field; lra|].
  apply Rmult_le_pos; [lra|]. left. by apply Rinv_0_lt_compat.
Qed.
(** Distances along the ray in the two frames. *)
Lemma along_local p d t : unit d ->
  transform K (along p d t) = along (transform K p) (normalize (transform K d)) (t * vmag (transform K d)).
Proof using Hk.
  intros Hd. pose proof (local_length d Hd) as H. unfold normalize. assert (E : vmag (transform K d) * (1 / vmag (transform K d)) = 1) by (field; lra).
  set (m := vmag (transform K d)) in *. apply v3_eq; cbn -[K]; unfold transform; cbn -[K]; rewrite ?Rmult_plus_distr_r.
  - replace (t * m * (1 / m * (vx d * vx (s_inv K)))) with (t * (m * (1 / m)) * vx d * vx (s_inv K)) by ring. rewrite E. ring.
  - replace (t * m * (1 / m * (vy d * vy (s_inv K)))) with (t * (m * (1 / m)) * vy d * vy (s_inv K)) by ring. rewrite E. ring.
  - replace (t * m * (1 / m * (vz d * vz (s_inv K)))) with (t * (m * (1 / m)) * vz d * vz (s_inv K)) by ring. rewrite E. ring.
Qed.
Lemma local_distance d t : transform_distance K t d = vmag (transform K d) * t.
Proof using. done. Qed.
Lemma master_distance d t : unit d -> inverse_transform_distance K t (normalize (transform K d)) = t / vmag (transform K d).
Proof using Hk.
  intros Hd. pose proof (local_length d Hd) as H. unfold inverse_transform_distance. cbn zeta. set (m := vmag (transform K d)) in *.
  replace (vmul (normalize (transform K d)) (s_scale K)) with (vscale (1 / m) (inverse_transform K (transform K d))) by (unfold normalize; fold m; apply v3_eq; cbn; ring).
  rewrite there_back. fold (vmag (vscale (1 / m) d)). rewrite vmag_scale. unfold vmag. rewrite Hd, sqrt_1.
  rewrite Rabs_pos_eq; [field; lra|]. apply Rmult_le_pos; [lra|]. left. by apply Rinv_0_lt_compat.
Qed.
Lemma div_nonneg D m : 0 <= D -> 0 < m -> 0 <= D / m.
Proof using. intros. apply Rmult_le_pos; [done|left; by apply Rinv_0_lt_compat]. Qed.
Lemma to_in_right inf S sh p d smax : unit d ->
  (let m := vmag (transform K d) in let ud := normalize (transform K d) in
   right_in inf S (transform K p) ud (smax * m) (sh_to_in sh (transform K p) ud (smax * m))) ->
  let D := sc_to_in inf K sh p d smax in first_in (scaled k S) p d D \/ (D = inf /\ misses (scaled k S) p d smax).
Proof using Hk.
  intros Hd. cbn zeta. intros H. pose proof (local_length d Hd) as Hm. unfold sc_to_in. cbn zeta. rewrite local_distance, (Rmult_comm (vmag _) smax).
  set (m := vmag (transform K d)) in *. set (D := sh_to_in _ _ _ _) in *. rewrite master_distance by done. fold m.
  destruct (rltb_spec D inf) as [Hl|Hl]; destruct H as [(Hi & A & B & C)|[E H]]; try lra.
  - left. split; [by apply div_nonneg|]. split.
    + apply scaled_iff. rewrite along_local by done. fold m. by replace (D / m * m) with D by (field; lra).
    + intros u Hu. rewrite scaled_iff, along_local by done. fold m. apply C. split; [nra|]. replace D with (D / m * m) by (field; lra). nra.
  - right. split; [done|]. intros u Hu. rewrite scaled_iff, along_local by done. fold m. apply H. nra.
Qed.
Lemma to_out_right inf S sh p d smax : unit d ->
  (let m := vmag (transform K d) in let ud := normalize (transform K d) in
   right_out inf S (transform K p) ud (smax * m) (sh_to_out sh (transform K p) ud (smax * m))) ->
  let D := sc_to_out inf K sh p d smax in exits (scaled k S) p d D \/ (D = inf /\ forall u, 0 <= u <= smax -> scaled k S (along p d u)).
Proof using Hk.
  intros Hd. cbn zeta. intros H. pose proof (local_length d Hd) as Hm. unfold sc_to_out. cbn zeta. rewrite local_distance, (Rmult_comm (vmag _) smax).
  set (m := vmag (transform K d)) in *. set (D := sh_to_out _ _ _ _) in *. rewrite master_distance by done. fold m.
  destruct (rltb_spec D inf) as [Hl|Hl]; destruct H as [(Hi & A & B & C)|[E H]]; try lra.
  - left. split; [by apply div_nonneg|]. split.
    + intros u Hu. apply scaled_iff. rewrite along_local by done. fold m. apply B. split; [nra|]. replace D with (D / m * m) by (field; lra). nra.
    + intros e He. destruct (C (e * m)) as (u & Hu & Hn); [nra|]. exists (u / m). rewrite scaled_iff, along_local by done. fold m.
      replace (u / m * m) with u by (field; lra). split; [|done]. split.
      * apply Rmult_le_compat_r; [left; by apply Rinv_0_lt_compat|lra].
      * replace (D / m + e) with ((D + e * m) / m) by (field; lra). apply Rmult_lt_compat_r; [by apply Rinv_0_lt_compat|lra].
  - right. split; [done|]. intros u Hu. rewrite scaled_iff, along_local by done. fold m. apply H. nra.
Qed.
Lemma negative_kept inf sh p d smax : unit d -> 0 <= inf ->
  sh_to_in sh (transform K p) (normalize (transform K d)) (transform_distance K smax d) < 0 -> sc_to_in inf K sh p d smax < 0.
Proof using Hk.
  intros Hd Hi Hn. pose proof (local_length d Hd) as Hm. unfold sc_to_in. cbn zeta. destruct (rltb_spec (sh_to_in sh (transform K p) (normalize (transform K d)) (transform_distance K smax d)) inf) as [Hl|Hl]; [|lra].
  rewrite master_distance by done. pose proof (Rinv_0_lt_compat _ Hm). unfold Rdiv. nra.
Qed.
(** Safeties: the smallest factor of the scale bounds how distances shrink. *)
Lemma master_le : 0 <= s_master K /\ s_master K <= Rabs (vx k) /\ s_master K <= Rabs (vy k) /\ s_master K <= Rabs (vz k).
Proof using.
  cbn. pose proof (Rabs_pos (vx k)). pose proof (Rabs_pos (vy k)). pose proof (Rabs_pos (vz k)).
  unfold Rmin. repeat destruct Rle_dec; lra.
Qed.
Lemma dist_local p q : s_master K * vdist (transform K p) (transform K q) <= vdist p q.
Proof using Hk.
  destruct master_le as (H0 & H1 & H2 & H3). set (m := s_master K) in *.
  rewrite <- (there_back p) at 2. rewrite <- (there_back q) at 2. set (a := transform K p). set (b := transform K q). clearbody a b.
  unfold vdist. apply sqr_le_le; [apply vmag_nonneg|]. replace (m * vmag (vsub a b) * (m * vmag (vsub a b))) with (m * m * (vmag (vsub a b) * vmag (vsub a b))) by ring.
  rewrite !vmag_sqr. unfold vsub, vdot, inverse_transform. unfold K. cbn [vx vy vz s_scale update]. clearbody m.
  assert (Hs : forall s x y, m <= Rabs s -> m * m * ((x - y) * (x - y)) <= (x * s - y * s) * (x * s - y * s)).
  { intros s x y Hs. replace ((x * s - y * s) * (x * s - y * s)) with ((s * s) * ((x - y) * (x - y))) by ring.
    apply Rmult_le_compat_r; [apply Rle_0_sqr|]. rewrite <- (Rabs_pos_eq (s * s)) by apply Rle_0_sqr. rewrite Rabs_mult. clear - H0 Hs. nra. }
  pose proof (Hs _ (vx a) (vx b) H1). pose proof (Hs _ (vy a) (vy b) H2). pose proof (Hs _ (vz a) (vz b) H3). lra.
Qed.
Lemma local_dist p q : transform_safety K (vdist p q) <= vdist (transform K p) (transform K q).
Proof using Hk.
  unfold transform_safety. assert (H : 0 <= s_local K /\ s_local K <= Rabs (1 / vx k) /\ s_local K <= Rabs (1 / vy k) /\ s_local K <= Rabs (1 / vz k)).
  { cbn. pose proof (Rabs_pos (1 / vx k)). pose proof (Rabs_pos (1 / vy k)). pose proof (Rabs_pos (1 / vz k)). unfold Rmin. repeat destruct Rle_dec; lra. }
  destruct H as (H0 & H1 & H2 & H3). set (m := s_local K) in *. 
  unfold vdist. apply sqr_le_le; [apply vmag_nonneg|]. replace (vmag (vsub p q) * m * (vmag (vsub p q) * m)) with (m * m * (vmag (vsub p q) * vmag (vsub p q))) by ring.
  rewrite !vmag_sqr. unfold vsub, vdot, transform. unfold K. cbn [vx vy vz s_inv update]. clearbody m.
  assert (Hs : forall s x y, m <= Rabs s -> m * m * ((x - y) * (x - y)) <= (x * s - y * s) * (x * s - y * s)).
  { intros s x y Hs. replace ((x * s - y * s) * (x * s - y * s)) with ((s * s) * ((x - y) * (x - y))) by ring.
    apply Rmult_le_compat_r; [apply Rle_0_sqr|]. rewrite <- (Rabs_pos_eq (s * s)) by apply Rle_0_sqr. rewrite Rabs_mult. clear - H0 Hs. nra. }
  pose proof (Hs _ (vx p) (vx q) H1). pose proof (Hs _ (vy p) (vy q) H2). pose proof (Hs _ (vz p) (vz q) H3). lra.
Qed.
Lemma safety_scaled s p q : s <= vdist (transform K p) (transform K q) -> inverse_transform_safety K s <= vdist p q.
Proof using Hk.
  intros H. eapply Rle_trans; [|apply dist_local]. unfold inverse_transform_safety. rewrite Rmult_comm. apply Rmult_le_compat_l; [apply master_le|done].
Qed.
(** Normals. *)
Lemma normal_dot n a b : vdot (inverse_transform_normal K n) (vsub (inverse_transform K a) (inverse_transform K b)) = vx k * vy k * vz k * vdot n (vsub a b).
Proof using. unfold vdot, vsub. cbn. ring. Qed.
Lemma normal_there_back n : transform_normal K (inverse_transform_normal K n) = n.
Proof using Hk. destruct Hk as (A & B & C). apply v3_eq; cbn; field; done. Qed.
Lemma normal_back_there n : inverse_transform_normal K (transform_normal K n) = n.
Proof using Hk. destruct Hk as (A & B & C). apply v3_eq; cbn; field; done. Qed.
Lemma normal_pos n : 0 < vmag n -> 0 < vmag (inverse_transform_normal K n).
Proof using Hk.
  intros Hn. destruct (vmag_nonneg (inverse_transform_normal K n)) as [H|H]; [done|exfalso]. set (v := inverse_transform_normal K n) in *.
  assert (E : v = vzero).
  { pose proof (vmag_sqr v) as Q. rewrite <- H in Q. unfold vdot in Q.
    assert (vx v * vx v = 0 /\ vy v * vy v = 0 /\ vz v * vz v = 0) as (A & B & C) by nra. apply v3_eq; cbn; apply Rsqr_0_uniq; done. }
  assert (E2 : n = vzero) by (rewrite <- (normal_there_back n); fold v; rewrite E; apply v3_eq; cbn; ring).
  rewrite E2 in Hn. unfold vmag, vdot in Hn. cbn in Hn. rewrite !Rmult_0_l, !Rplus_0_r, sqrt_0 in Hn. lra.
Qed.
Lemma normalize_dot v w : vdot (normalize v) w = 1 / vmag v * vdot v w.
Proof using. unfold normalize, vdot. cbn. ring. Qed.
Lemma normal_outward S sh p : 0 < vx k * vy k * vz k -> 0 < vmag (sh_normal sh (transform K p)) -> outward S (transform K p) (sh_normal sh (transform K p)) ->
  unit (snd (sc_normal K sh p)) /\ outward (scaled k S) p (snd (sc_normal K sh p)).
Proof using Hk.
  intros Hs Hn Ho. cbn [snd sc_normal]. set (n := sh_normal sh (transform K p)) in *. pose proof (normal_pos n Hn) as Hp. split; [by apply normalize_unit|].
  intros q Hq. apply scaled_iff, Ho in Hq. rewrite normalize_dot. rewrite <- (there_back p), <- (there_back q), normal_dot.
  pose proof (Rinv_0_lt_compat _ Hp). unfold Rdiv. rewrite Rmult_1_l. assert (vx k * vy k * vz k * vdot n (vsub (transform K q) (transform K p)) <= 0) by nra. nra.
Qed.
(** Extents. *)
Lemma extent_eq sh lo hi : sh_extent sh = (lo, hi) -> sc_extent K sh = (inverse_transform K lo, inverse_transform K hi).
Proof using. intros E. unfold sc_extent. rewrite E. f_equal; apply v3_eq; cbn; field. Qed.
Lemma extent_bounds sh (S : v3 -> Prop) : 0 < vx k -> 0 < vy k -> 0 < vz k -> (forall q, S q -> in_box (fst (sh_extent sh)) (snd (sh_extent sh)) q) ->
  forall p, scaled k S p -> in_box (fst (sc_extent K sh)) (snd (sc_extent K sh)) p.
Proof using.
  intros Hx Hy Hz H p (q & Hq & ->). destruct (sh_extent sh) as [lo hi] eqn:E. rewrite (extent_eq _ _ _ E). specialize (H q Hq). cbn [fst snd] in *.
  unfold in_box in *. cbn. nra.
Qed.
End scale.
