(** Rays leaving a tube. *)
From Coq Require Import Reals Lra Lia Bool ZArith Psatz.
From stdpp Require Import base list option numbers tactics.
From Verif Require Import Real3 AABBModel BoxModel BoxProofs PlanesModel PlanesProofs ConeModel ConeSpec ConeProofs WedgeModel WedgeSpec WedgeProofs WedgeProofs2 TubeModel TubeSpec TubeProofs.
Import stdpp.list.
Local Open Scope R_scope.

(** * Points of a line through the axis *)
Lemma on_line phi x y : side phi x y = 0 → x = ahead phi x y * cos phi ∧ y = ahead phi x y * sin phi.
Proof.
  unfold side, ahead. intros H. pose proof (sin2_cos2 phi) as E. unfold Rsqr in E. split.
  - transitivity (x * (sin phi * sin phi + cos phi * cos phi)); [rewrite E; ring|]. replace (x * (sin phi * sin phi + cos phi * cos phi)) with (x * cos phi * cos phi + (x * sin phi) * sin phi) by ring. replace (x * sin phi) with (y * cos phi) by lra. ring.
  - transitivity (y * (sin phi * sin phi + cos phi * cos phi)); [rewrite E; ring|]. replace (y * (sin phi * sin phi + cos phi * cos phi)) with (y * sin phi * sin phi + (y * cos phi) * cos phi) by ring. replace (y * cos phi) with (x * sin phi) by lra. ring.
Qed.
Lemma side_on_line phi psi x y : side phi x y = 0 → side psi x y = ahead phi x y * sin (phi - psi).
Proof. intros H. destruct (on_line phi x y H) as [E1 E2]. rewrite <- side_polar. by rewrite <- E1, <- E2. Qed.
Lemma ahead_flip phi x y : ahead (phi + PI) x y = - ahead phi x y.
Proof. unfold ahead. rewrite neg_cos, neg_sin. ring. Qed.
(** A line that is in the sector and is out of it later crosses a side in between, on its half line. *)
Lemma leave_at s d x y dx dy u : 0 < d < 2 * PI → 0 <= u → sector s d x y → ¬ sector s d (x + u * dx) (y + u * dy) →
  ∃ t, 0 <= t <= u ∧
    ((side s (x + t * dx) (y + t * dy) = 0 ∧ side s dx dy < 0 ∧ 0 <= ahead s (x + t * dx) (y + t * dy)) ∨
     (side (s + d) (x + t * dx) (y + t * dy) = 0 ∧ 0 < side (s + d) dx dy ∧ 0 <= ahead (s + d) (x + t * dx) (y + t * dy))).
Proof.
  intros Hd Hu H0 H1. pose proof PI_RGT_0 as HPI. rewrite by_sides' in H0, H1 by lra.
  set (a := λ v, side s (x + v * dx) (y + v * dy)). set (b := λ v, side (s + d) (x + v * dx) (y + v * dy)).
  set (da := side s dx dy). set (db := side (s + d) dx dy). set (a0 := side s x y) in *. set (b0 := side (s + d) x y) in *.
  assert (Ea : ∀ v, a v = a0 + v * da) by (intros; apply side_along). assert (Eb : ∀ v, b v = b0 + v * db) by (intros; apply side_along).
  fold (a u) (b u) in H1. assert (D1 : sin (s - (s + d)) = - sin d) by (rewrite <- sin_neg; f_equal; ring). assert (D2 : sin (s + d - s) = sin d) by (f_equal; ring).
  assert (Fa : ∀ v, a v = 0 → b v = - ahead s (x + v * dx) (y + v * dy) * sin d) by (intros v Hv; unfold b; rewrite (side_on_line s (s + d)) by done; rewrite D1; ring).
  assert (Fb : ∀ v, b v = 0 → a v = ahead (s + d) (x + v * dx) (y + v * dy) * sin d) by (intros v Hv; unfold a; rewrite (side_on_line (s + d) s) by done; rewrite D2; ring).
  assert (Za : ∀ v w, v <= w → 0 <= a v → a w < 0 → ∃ r, v <= r <= w ∧ a r = 0 ∧ da < 0).
  { intros v w Hvw A B. rewrite Ea in A, B. assert (da < 0) by nra. exists (- a0 / da). assert (Q : - a0 / da * da = - a0) by (field; lra). generalize dependent (- a0 / da); intros r Q; split; [split; nra|]. split; [rewrite Ea; lra|done]. }
  assert (Zb : ∀ v w, v <= w → b v <= 0 → 0 < b w → ∃ r, v <= r <= w ∧ b r = 0 ∧ 0 < db).
  { intros v w Hvw A B. rewrite Eb in A, B. assert (0 < db) by nra. exists (- b0 / db). assert (Q : - b0 / db * db = - b0) by (field; lra). generalize dependent (- b0 / db); intros r Q; split; [split; nra|]. split; [rewrite Eb; lra|done]. }
  assert (A0 : a 0 = a0) by (rewrite Ea; ring). assert (B0 : b 0 = b0) by (rewrite Eb; ring).
  destruct (Rle_dec d PI) as [Hp|Hp].
  - destruct H0 as [H0 _]. destruct (H0 Hp) as [Ha0 Hb0]. clear H0.
    assert (OUT : a u < 0 ∨ 0 < b u). { destruct (Rlt_dec (a u) 0); [by left|]. destruct (Rlt_dec 0 (b u)); [by right|]. exfalso. apply H1. split; intros; lra. }
    destruct (Rle_lt_or_eq_dec _ _ Hp) as [Hlt|Heq].
    + assert (Hs : 0 < sin d) by (apply sin_gt_0; lra).
      destruct (Rlt_dec (a u) 0) as [Au|Au].
      * destruct (Za 0 u) as (r & Hr & Er & Hda); [lra|lra|done|]. destruct (Rle_dec (b r) 0) as [Br|Br].
        -- exists r. split; [lra|]. left. split; [done|]. split; [done|]. rewrite (Fa r Er) in Br. nra.
        -- destruct (Zb 0 r) as (w & Hw & Ew & Hdb); [lra|lra|lra|]. exists w. split; [lra|]. right. split; [done|]. split; [done|].
           assert (Q : 0 <= a w) by (pose proof (Ea w); pose proof (Ea u); try pose proof (Ea r); destruct (Rle_dec 0 da); nra). rewrite (Fb w Ew) in Q. nra.
      * destruct OUT as [|Bu]; [lra|]. destruct (Zb 0 u) as (w & Hw & Ew & Hdb); [lra|lra|done|]. exists w. split; [lra|]. right. split; [done|]. split; [done|].
        assert (Q : 0 <= a w) by (pose proof (Ea w); pose proof (Ea u); try pose proof (Ea r); destruct (Rle_dec 0 da); nra). rewrite (Fb w Ew) in Q. nra.
    + assert (F : ∀ v, b v = - a v) by (intros v; unfold b, a; rewrite Heq; apply side_flip). assert (a u < 0) by (rewrite F in OUT; lra).
      destruct (Za 0 u) as (r & Hr & Er & Hda); [lra|lra|done|]. exists r. split; [lra|].
      destruct (Rle_dec 0 (ahead s (x + r * dx) (y + r * dy))); [by left|]. right. split; [fold (b r); rewrite F; lra|]. assert (db = - da) by (unfold db, da; rewrite Heq; apply side_flip). split; [lra|]. rewrite Heq, ahead_flip. lra.
  - assert (Hs : sin d < 0) by (apply sin_lt_0; lra). destruct H0 as [_ H0]. specialize (H0 ltac:(lra)).
    assert (a u < 0 ∧ 0 < b u) as [Au Bu]. { split; apply Rnot_le_lt; intros K; apply H1; split; intros; lra. }
    destruct (Rle_dec 0 a0) as [Ha|Ha].
    + destruct (Za 0 u) as (r & Hr & Er & Hda); [lra|lra|done|]. destruct (Rle_dec 0 (b r)) as [Br|Br].
      * exists r. split; [lra|]. left. split; [done|]. split; [done|]. rewrite (Fa r Er) in Br. nra.
      * destruct (Zb r u) as (w & Hw & Ew & Hdb); [lra|lra|done|]. exists w. split; [lra|]. right. split; [done|]. split; [done|].
        assert (Q : a w <= 0) by (pose proof (Ea w); pose proof (Ea u); try pose proof (Ea r); destruct (Rle_dec 0 da); nra). rewrite (Fb w Ew) in Q. nra.
    + destruct (Zb 0 u) as (w & Hw & Ew & Hdb); [lra|lra|done|]. exists w. split; [lra|]. right. split; [done|]. split; [done|].
      assert (Q : a w <= 0) by (pose proof (Ea w); pose proof (Ea u); try pose proof (Ea r); destruct (Rle_dec 0 da); nra). rewrite (Fb w Ew) in Q. nra.
Qed.

(** * The candidates *)
Lemma shorter_le inf c x : shorter inf c <= inf ∧ (c = Some x → shorter inf c <= x).
Proof. unfold shorter. destruct c as [y|]; [|split; [lra|done]]. destruct (rltb_spec y inf); split; try lra; intros [= <-]; lra. Qed.
Lemma shorter_one inf c : shorter inf c = inf ∨ c = Some (shorter inf c).
Proof. unfold shorter. destruct c as [y|]; [|by left]. destruct (rltb_spec y inf); [by right|by left]. Qed.
Section Ray.
Variables (k : tube_type) (m M Z s d : R).
Hypothesis Hm : 0 <= m < M.
Hypothesis HZ : 0 < Z.
Hypothesis Hd : 0 < d <= 2 * PI.
Hypothesis Hk : tube_fits k m d.
Let t := tb m M Z s d.
Variables (p dir : v3).
Lemma circle_some (largest check : bool) b c x : circle_hit k t largest check b c p dir = Some x ↔
  (0 < b * b - c ∨ (largest = true ∧ b * b - c = 0)) ∧ x = - b + (if largest then R_sqrt.sqrt (b * b - c) else - R_sqrt.sqrt (b * b - c)) ∧ -2 * kTolerance <= x ∧
  (check = true → Rabs (vz p + x * vz dir) <= Z ∧ (d < 2 * PI → wide_sector kHalfTolerance s d (vx p + x * vx dir) (vy p + x * vy dir))).
Proof using Hm HZ Hd Hk.
  unfold circle_hit. cbv zeta. unfold t. rewrite phi_eq by done. fold t. change (tb_z t) with Z.
  set (ok := rgtb (b * b - c) 0 || (largest && reqb (b * b - c) 0)).
  assert (Eok : ok = true ↔ 0 < b * b - c ∨ (largest = true ∧ b * b - c = 0)).
  { unfold ok. destruct (rgtb_spec (b * b - c) 0), (reqb_spec (b * b - c) 0), largest; cbn; intuition (try discriminate; try lra). }
  destruct ok; cbn [andb].
  - set (r := - b + (if largest then R_sqrt.sqrt (b * b - c) else - R_sqrt.sqrt (b * b - c))).
    destruct (rgeb_spec r (-2 * kTolerance)) as [Hr|Hr]; cbn [negb].
    + destruct check.
      * destruct (rleb_spec (Rabs (vz p + r * vz dir)) Z) as [Hz|Hz]; cbn [negb]; [|split; [done|intros (_ & -> & _ & Q); destruct (Q eq_refl); lra]].
        destruct (rltb_spec d (2 * PI)) as [Hp|Hp]; cbn [andb].
        -- pose proof (sector_test k m M Z s d Hm HZ Hd Hk (vx p + r * vx dir) (vy p + r * vy dir) Hp) as E. fold t in E.
           destruct (in_sector k t true (vx p + r * vx dir) (vy p + r * vy dir)); cbn [negb].
           ++ split; [intros [= <-]; split; [tauto|]; split; [done|]; split; [lra|]; intros _; split; [lra|]; intros _; by apply E|intros (_ & -> & _); done].
           ++ split; [done|]. intros (_ & -> & _ & Q). destruct (Q eq_refl) as [_ Q']. specialize (Q' ltac:(lra)). apply E in Q'. done.
        -- split; [intros [= <-]; split; [tauto|]; split; [done|]; split; [lra|]; intros _; split; [lra|]; intros; exfalso; lra|intros (_ & -> & _); done].
      * split; [intros [= <-]; split; [tauto|]; split; [done|]; split; [lra|]; done|intros (_ & -> & _); done].
    + split; [done|]. intros (_ & -> & ? & _). exfalso; lra.
  - split; [done|]. intros (Q & _). apply Eok in Q. done.
Qed.
(** The meeting points of the line with the circle of radius A. *)
Lemma r2_along u : rho (along p dir u) * rho (along p dir u) = rho p * rho p + 2 * u * (vx p * vx dir + vy p * vy dir) + u * u * (vx dir * vx dir + vy dir * vy dir).
Proof using. rewrite <- !r2_rho. unfold along, vadd, vscale; cbn. ring. Qed.
Lemma r2_square A n u : 0 < n → n = vx dir * vx dir + vy dir * vy dir →
  let b := 1 / n * (vx p * vx dir + vy p * vy dir) in let c := (rho p * rho p - A * A) * (1 / n) in
  rho (along p dir u) * rho (along p dir u) - A * A = n * ((u + b) * (u + b) - (b * b - c)).
Proof using. intros Hn E b c. rewrite r2_along, <- E. unfold b, c. field. lra. Qed.
Lemma side_q phi u : side phi (vx (along p dir u)) (vy (along p dir u)) = side phi (vx p) (vy p) + u * side phi (vx dir) (vy dir).
Proof using. apply side_along. Qed.
Lemma plane_some (positive check : bool) phi nx ny x : plane_hit t positive check (cos phi) (sin phi) nx ny p dir = Some x ↔
  let dn := vx dir * nx + vy dir * ny in let q := along p dir x in
  (if check then 0 < dn else dn < 0) ∧ x = - side phi (vx p) (vy p) / nz (side phi (vx dir) (vy dir)) ∧ - kHalfTolerance < x * Rabs dn ∧
  (if check then Rabs (vz q) <= Z + kHalfTolerance ∧ (m - kHalfTolerance) * (m - kHalfTolerance) <= rho q * rho q <= (M + kHalfTolerance) * (M + kHalfTolerance) ∧
     (positive = true → 0 < ahead phi (vx q) (vy q))
   else positive = true → 0 <= ahead phi (vx q) (vy q)).
Proof using.
  unfold plane_hit. cbv zeta. change (tb_Oz t) with (Z + kHalfTolerance). change (tb_Ormin2 t) with ((m - kHalfTolerance) * (m - kHalfTolerance)). change (tb_Ormax2 t) with ((M + kHalfTolerance) * (M + kHalfTolerance)).
  replace (vy dir * cos phi - vx dir * sin phi) with (side phi (vx dir) (vy dir)) by done.
  replace (sin phi * vx p - cos phi * vy p) with (- side phi (vx p) (vy p)) by (unfold side; ring).
  set (dn := vx dir * nx + vy dir * ny). set (r := - side phi (vx p) (vy p) / nz (side phi (vx dir) (vy dir))).
  assert (Er2 : (vx p + r * vx dir) * (vx p + r * vx dir) + (vy p + r * vy dir) * (vy p + r * vy dir) = rho (along p dir r) * rho (along p dir r)) by (rewrite <- r2_rho; done).
  assert (Ea : (vx p + r * vx dir) * cos phi + (vy p + r * vy dir) * sin phi = ahead phi (vx (along p dir r)) (vy (along p dir r))) by done.
  rewrite Er2, Ea. change (vz p + r * vz dir) with (vz (along p dir r)).
  destruct check.
  - destruct (rgtb_spec dn 0); cbn [andb]; [|split; [destruct positive; done|intros (? & _); exfalso; lra]].
    destruct (rgtb_spec (r * Rabs dn) (- kHalfTolerance)); cbn [andb]; [|split; [destruct positive; done|intros (_ & -> & ? & _); exfalso; lra]].
    destruct (rleb_spec (Rabs (vz (along p dir r))) (Z + kHalfTolerance)); cbn [andb]; [|split; [destruct positive; done|intros (_ & -> & _ & ? & _); exfalso; lra]].
    destruct (rgeb_spec (rho (along p dir r) * rho (along p dir r)) ((m - kHalfTolerance) * (m - kHalfTolerance))); cbn [andb]; [|split; [destruct positive; done|intros (_ & -> & _ & _ & ? & _); exfalso; lra]].
    destruct (rleb_spec (rho (along p dir r) * rho (along p dir r)) ((M + kHalfTolerance) * (M + kHalfTolerance))); cbn [andb]; [|split; [destruct positive; done|intros (_ & -> & _ & _ & ? & _); exfalso; lra]].
    destruct positive; cbn [andb].
    + destruct (rgtb_spec (ahead phi (vx (along p dir r)) (vy (along p dir r))) 0); split; try done.
      * intros [= <-]. repeat split; try lra; done.
      * intros (_ & -> & _); done.
      * intros (_ & -> & _ & _ & _ & Q). specialize (Q eq_refl). exfalso; lra.
    + split; [intros [= <-]; repeat split; try lra; done|intros (_ & -> & _); done].
  - destruct (rltb_spec dn 0); cbn [andb]; [|split; [destruct positive; done|intros (? & _); exfalso; lra]].
    destruct (rgtb_spec (r * Rabs dn) (- kHalfTolerance)); cbn [andb]; [|split; [destruct positive; done|intros (_ & -> & ? & _); exfalso; lra]].
    destruct positive; cbn [andb].
    + destruct (rgeb_spec (ahead phi (vx (along p dir r)) (vy (along p dir r))) 0); split; try done.
      * intros [= <-]. repeat split; try lra; done.
      * intros (_ & -> & _); done.
      * intros (_ & -> & _ & Q). specialize (Q eq_refl). exfalso; lra.
    + split; [intros [= <-]; repeat split; try lra; done|intros (_ & -> & _); done].
Qed.
End Ray.
