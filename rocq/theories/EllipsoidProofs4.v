From Coq Require Import Reals Lra Lia Bool Psatz.
From stdpp Require Import base list option numbers tactics.
From Verif Require Import Real3 AABBModel AABBProofs BoxModel BoxProofs PlanesModel TetModel ConeModel ConeSpec ConeProofs EllTubeModel EllTubeSpec EllTubeProofs EllTubeProofs2 EllTubeProofs3 EllTubeProofs4 EllipsoidModel EllipsoidSpec EllipsoidProofs.
Import stdpp.list.
Local Open Scope R_scope.

Lemma vunit_eq kmin v : 0 <= kmin -> 0 < vdot v v -> ∃ k, 0 < k /\ vunit kmin v = vscale k v /\ 0 < vdot (vscale k v) (vscale k v) <= 1 /\ (kmin = 0 -> vdot (vscale k v) (vscale k v) = 1).
Proof.
  intros Hk G. unfold vunit. set (w := vdot v v + kmin). assert (W0 : 0 < w) by (unfold w; lra). pose proof (sqrt_lt_R0 _ W0) as S0. assert (S : R_sqrt.sqrt w * R_sqrt.sqrt w = w) by (apply sqrt_sqrt; lra). set (s := R_sqrt.sqrt w) in *.
  exists (/ s). split; [by apply Rinv_0_lt_compat|]. split; [done|]. assert (Q2 : vdot (vscale (/ s) v) (vscale (/ s) v) = vdot v v / (s * s)) by (unfold vdot, vscale; cbn; field; lra). rewrite Q2, S. split; [split; [by apply Rdiv_lt_0_compat|]|].
  - apply Rmult_le_reg_r with w; [done|]. replace (vdot v v / w * w) with (vdot v v) by (field; lra). unfold w. lra.
  - intros K1. unfold w. rewrite K1, Rplus_0_r. field. lra.
Qed.
Lemma sign_scale k x : 0 < k -> rsign (k * x) = rsign x.
Proof. intros K. unfold rsign. destruct (rltb_spec (k * x) 0), (rltb_spec x 0); try done; nra. Qed.
Lemma vdot_nonneg v : 0 <= vdot v v.
Proof. unfold vdot. nra. Qed.
Lemma vdot_zero v : vdot v v = 0 -> v = vzero.
Proof. intros Q. unfold vdot in Q. pose proof (Rle_0_sqr (vx v)). pose proof (Rle_0_sqr (vy v)). pose proof (Rle_0_sqr (vz v)). unfold Rsqr in *. apply v3_eq; cbn; apply Rsqr_0_uniq; unfold Rsqr; lra. Qed.

Section Shape.
Variables A B C zb zt : R.
Hypothesis HA : 2 * kTolerance <= A.
Hypothesis HB : 2 * kTolerance <= B.
Hypothesis HC : 2 * kTolerance <= C.
Hypothesis Hz : - C <= zb < zt /\ zt <= C.
Notation t := (mk_ellipsoid A B C zb zt).
Notation m := (es_short A B C).
Notation c := (m / C).
Notation f := (ball_at A B C).
Notation h := kHalfTolerance.
Notation fields := (fields A B C zb zt HA HB HC Hz).
Notation es_pos := (es_pos A B C zb zt HA HB HC Hz).
Notation c_pos := (c_pos A B C zb zt HA HB HC Hz).
Notation near_side := (es_near_side A B C).
Notation near_cut := (es_near_cut A B C zb zt).
Notation grad := (es_gradient A B C).
Definition cut_normal (p : v3) : v3 := V3 0 0 (rsign (vz p - (zb + zt) / 2)).
Lemma near_side_spec p : reflect (near_side p) (rleb (Rabs (es_distR t p)) h).
Proof using HA HB HC Hz.
  destruct (es_distR_e A B C zb zt HA HB HC Hz p) as (E1 & _ & E2). assert (K : - h <= es_distR t p <= h <-> - h <= m * (f p - 1) <= h) by (rewrite E1, E2; split; lra). unfold es_near_side. destruct (rleb_spec (Rabs (es_distR t p)) h) as [G|G]; constructor; rewrite abs_le in G; rewrite abs_le; tauto.
Qed.
Lemma near_cut_spec p : reflect (near_cut p) (rleb (Rabs (es_distZ t p)) h).
Proof using HA HB HC Hz. rewrite es_distZ_e by done. apply rleb_spec. Qed.
Lemma grad_nonzero p : near_side p -> 0 < vdot (grad p) (grad p).
Proof using HA HB HC Hz.
  intros N. unfold es_near_side in N. apply abs_le in N. pose proof es_pos as (A0 & B0 & C0 & HM & M0 & _). pose proof kTolerance_pos as HT. assert (E0 : 0 < f p). { pose proof (f_nonneg A B C p). unfold h in N. destruct (Req_dec (f p) 0) as [Q|Q]; [rewrite Q in N; lra|lra]. }
  pose proof (f_sqr A B C p) as E. assert (E1 : 0 < f p * f p) by nra. rewrite E in E1. pose proof (vdot_nonneg (grad p)) as [?|Q]; [done|]. exfalso. unfold vdot, es_gradient in Q. cbn [vx vy vz] in Q.
  assert (K : ∀ a L, 0 < L -> a / (L * L) * (a / (L * L)) = 0 -> a / L * (a / L) = 0). { intros a L HL G. replace (a / L) with (a / (L * L) * L) by (field; lra). assert (a / (L * L) = 0) as -> by (by apply Rsqr_0_uniq). ring. }
  pose proof (Rle_0_sqr (vx p / (A * A))) as X. pose proof (Rle_0_sqr (vy p / (B * B))) as Y. pose proof (Rle_0_sqr (vz p / (C * C))) as W. unfold Rsqr in *. rewrite (K (vx p) A), (K (vy p) B), (K (vz p) C) in E1 by lra. lra.
Qed.
Lemma side_normal_eq kmin p : 0 <= kmin -> near_side p -> ∃ k, 0 < k /\ es_side_normal kmin t p = vscale k (grad p) /\ 0 < vdot (vscale k (grad p)) (vscale k (grad p)) <= 1 /\ (kmin = 0 -> vdot (vscale k (grad p)) (vscale k (grad p)) = 1).
Proof using HA HB HC Hz.
  intros Hk N. pose proof (grad_nonzero p N) as G. pose proof fields as (DX & DY & DZ & _). unfold es_side_normal. rewrite DX, DY, DZ. by apply vunit_eq.
Qed.
Lemma cut_sign p : rsign (vz (es_scaled t p) - es_mid t) = rsign (vz p - (zb + zt) / 2).
Proof using HA HB HC Hz.
  pose proof fields as (_ & _ & _ & _ & _ & _ & _ & _ & _ & _ & _ & SZ & MI & _). pose proof c_pos as CP. pose proof es_pos as (_ & _ & C0 & _). rewrite MI. unfold es_scaled. cbn [vz]. rewrite SZ. replace (vz p * c - 1 / 2 * (zt * c + zb * c)) with (c * (vz p - (zb + zt) / 2)) by (field; lra). apply sign_scale. lra.
Qed.
Lemma normal_side kmin p : 0 <= kmin -> near_side p -> ¬ near_cut p -> ∃ k, 0 < k /\ es_normal kmin t p = (vscale k (grad p), true) /\ (kmin = 0 -> vdot (vscale k (grad p)) (vscale k (grad p)) = 1).
Proof using HA HB HC Hz.
  intros Hk N L. destruct (side_normal_eq kmin p Hk N) as (k & K0 & E & [G1 G2] & G3). exists k. split; [done|]. split; [|done]. unfold es_normal. destruct (near_side_spec p); [|done]. destruct (near_cut_spec p); [done|]. rewrite E.
  destruct (rgtb_spec (vdot (vscale k (grad p)) (vscale k (grad p))) 1); [lra|]. destruct (rgtb_spec (vdot (vscale k (grad p)) (vscale k (grad p))) 0); [done|lra].
Qed.
Lemma normal_cut kmin p : ¬ near_side p -> near_cut p -> es_normal kmin t p = (cut_normal p, true).
Proof using HA HB HC Hz.
  intros N L. unfold es_normal. destruct (near_side_spec p); [done|]. destruct (near_cut_spec p); [|done]. rewrite cut_sign. cbn [vzero vx vy vz]. rewrite Rplus_0_l. fold (cut_normal p). assert (Q : vdot (cut_normal p) (cut_normal p) = 1). { unfold vdot, cut_normal. cbn [vx vy vz]. rewrite sign_sqr. ring. }
  rewrite Q. destruct (rgtb_spec 1 1); [lra|]. rewrite Q. destruct (rgtb_spec 1 0); [done|lra].
Qed.
Lemma normal_edge kmin p : 0 <= kmin -> near_side p -> near_cut p -> ∃ k, 0 < k /\ (kmin = 0 -> vdot (vscale k (grad p)) (vscale k (grad p)) = 1) /\ let v := vadd (vscale k (grad p)) (cut_normal p) in
  (v = vzero -> snd (es_normal kmin t p) = false) /\ (v <> vzero -> ∃ k', 0 < k' /\ es_normal kmin t p = (vscale k' v, true) /\ (kmin = 0 -> 1 < vdot v v -> vdot (vscale k' v) (vscale k' v) = 1)).
Proof using HA HB HC Hz.
  intros Hk N L. destruct (side_normal_eq kmin p Hk N) as (k & K0 & E & [G1 G2] & G3). exists k. split; [done|]. split; [done|]. intros v.
  assert (EV : V3 (vx (vscale k (grad p))) (vy (vscale k (grad p))) (vz (vscale k (grad p)) + rsign (vz p - (zb + zt) / 2)) = v) by (unfold v, cut_normal; apply v3_eq; cbn; ring).
  unfold es_normal. destruct (near_side_spec p); [|done]. destruct (near_cut_spec p); [|done]. rewrite E, cut_sign, EV. split.
  - intros ->. assert (Q : vdot vzero vzero = 0) by (unfold vdot, vzero; cbn [vx vy vz]; ring). rewrite Q. destruct (rgtb_spec 0 1); [lra|]. rewrite Q. destruct (rgtb_spec 0 0); [lra|done].
  - intros NZ. assert (V0 : 0 < vdot v v). { pose proof (vdot_nonneg v) as [?|Q]; [done|]. exfalso. by apply NZ, vdot_zero. }
    destruct (rgtb_spec (vdot v v) 1) as [G|G].
    + destruct (vunit_eq kmin v Hk V0) as (k' & K1 & E' & [V1 _] & V3). exists k'. split; [done|]. rewrite E'. destruct (rgtb_spec (vdot (vscale k' v) (vscale k' v)) 0); [|lra]. split; [done|]. intros; by apply V3.
    + exists 1. split; [lra|]. destruct (rgtb_spec (vdot v v) 0); [|lra]. replace (vscale 1 v) with v by (apply v3_eq; cbn; ring). split; [done|]. intros; lra.
Qed.
Lemma normal_off kmin p : ¬ near_side p -> ¬ near_cut p -> snd (es_normal kmin t p) = false.
Proof using HA HB HC Hz.
  intros N L. unfold es_normal. destruct (near_side_spec p); [done|]. destruct (near_cut_spec p); [done|]. assert (Q : vdot vzero vzero = 0) by (unfold vdot, vzero; cbn [vx vy vz]; ring). rewrite Q. destruct (rgtb_spec 0 1); [lra|]. rewrite Q. destruct (rgtb_spec 0 0); [lra|]. done.
Qed.
End Shape.
