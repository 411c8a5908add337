(** Classes and safeties of tubes. *)
From Coq Require Import Reals Lra Lia Bool ZArith Psatz.
From stdpp Require Import base list option numbers tactics.
From Verif Require Import Real3 AABBModel BoxModel BoxProofs PlanesModel PlanesProofs ConeModel ConeSpec ConeProofs WedgeModel WedgeSpec WedgeProofs WedgeProofs2 TubeModel TubeSpec.
Import stdpp.list.
Local Open Scope R_scope.

Definition tb (m M Z s d : R) : tube :=
  Tube m M Z s d (m * m) (M * M) (cos s) (sin s) (cos (s + d)) (sin (s + d))
    ((m + kHalfTolerance) * (m + kHalfTolerance)) ((m - kHalfTolerance) * (m - kHalfTolerance))
    ((M - kHalfTolerance) * (M - kHalfTolerance)) ((M + kHalfTolerance) * (M + kHalfTolerance)) (Z + kHalfTolerance) (Rmax M Z) (mk_wedge d s).
Lemma tube_struct_eq m M Z s d : 0 <= m → tube_struct m M Z s d = tb m M Z s d.
Proof. intros H. unfold tube_struct. destruct (rltb_spec m 0); [exfalso; lra|]. done. Qed.
Lemma tube_struct_neg m M Z s d : m <= 0 → tube_struct m M Z s d = tb 0 M Z s d.
Proof. intros H. unfold tube_struct. destruct (rltb_spec m 0); [done|]. by replace m with 0 by lra. Qed.

Lemma open_sides s d x y : 0 < d < 2 * PI → open_sector s d x y ↔
  (d <= PI → 0 < side s x y ∧ side (s + d) x y < 0) ∧ (PI < d → 0 < side s x y ∨ side (s + d) x y < 0).
Proof.
  intros Hd. pose proof PI_RGT_0 as HPI. split.
  - intros (phi & r & Hp & Hr & -> & ->). rewrite !side_polar. replace (phi - (s + d)) with (- (s + d - phi)) by ring. rewrite sin_neg. split; intros H.
    + assert (0 < sin (phi - s)) by (apply sin_gt_0; lra). assert (0 < sin (s + d - phi)) by (apply sin_gt_0; lra). split; nra.
    + destruct (Rlt_dec (phi - s) PI).
      * left. assert (0 < sin (phi - s)) by (apply sin_gt_0; lra). nra.
      * right. assert (0 < sin (s + d - phi)) by (apply sin_gt_0; lra). nra.
  - intros [H1 H2]. destruct (polar s x y) as (r & a & Hr & Ha & -> & ->). rewrite !side_polar in H1, H2.
    replace (s + a - s) with a in * by ring. replace (s + a - (s + d)) with (- (d - a)) in * by ring. rewrite sin_neg in H1, H2.
    assert (Hr0 : 0 < r). { destruct (Rle_dec r 0); [|lra]. assert (r = 0) as -> by lra. destruct (Rle_dec d PI); [destruct (H1 ltac:(lra)); lra|destruct (H2 ltac:(lra)); lra]. }
    exists (s + a), r. split; [|done]. destruct (Rle_dec d PI) as [Hp|Hp].
    + destruct (H1 Hp) as [A B]. assert (A' : 0 < sin a) by nra. assert (B' : 0 < sin (d - a)) by nra.
      assert (0 < a). { apply Rnot_le_lt. intros K. assert (a = 0) as -> by lra. rewrite sin_0 in A'. lra. }
      assert (a < PI). { apply Rnot_le_lt. intros K. assert (sin a <= 0) by (apply sin_le_0; lra). lra. }
      split; [lra|]. apply Rplus_lt_compat_l. apply Rnot_le_lt. intros K. assert (E : sin (a - d) >= 0) by (apply Rle_ge, sin_ge_0; lra). replace (a - d) with (- (d - a)) in E by ring. rewrite sin_neg in E. lra.
    + destruct (H2 ltac:(lra)) as [A|B].
      * assert (A' : 0 < sin a) by nra. assert (0 < a) by (apply Rnot_le_lt; intros K; assert (a = 0) as -> by lra; rewrite sin_0 in A'; lra).
        assert (a < PI). { apply Rnot_le_lt. intros K. assert (sin a <= 0) by (apply sin_le_0; lra). lra. } lra.
      * assert (B' : 0 < sin (d - a)) by nra.
        assert (0 < a). { apply Rnot_le_lt. intros K. assert (a = 0) as -> by lra. rewrite Rminus_0_r in B'. assert (sin d <= 0) by (apply sin_le_0; lra). lra. }
        assert (a < d). { apply Rnot_le_lt. intros K. assert (E : sin (a - d) >= 0) by (apply Rle_ge, sin_ge_0; lra). replace (a - d) with (- (d - a)) in E by ring. rewrite sin_neg in E. lra. } lra.
Qed.
Lemma open_closed s d x y : open_sector s d x y → sector s d x y.
Proof. intros (phi & r & Hp & Hr & E). exists phi. split; [lra|]. exists r. split; [lra|done]. Qed.
Lemma sector_wide h s d x y : 0 <= h → 0 < d <= 2 * PI → sector s d x y → wide_sector h s d x y.
Proof. intros Hh Hd. rewrite by_sides' by done. intros [A B]. split; intros K; [destruct (A K); lra|destruct (B K); lra]. Qed.
Lemma abs_le a b : Rabs a <= b → - b <= a <= b.
Proof. intros. pose proof (Rle_abs a). pose proof (Rle_abs (- a)). rewrite Rabs_Ropp in *. lra. Qed.
Lemma sqr_lt a b : 0 <= a → 0 <= b → a * a < b * b ↔ a < b.
Proof. intros. split; intros; nra. Qed.
Lemma sqr_le a b : 0 <= a → 0 <= b → a * a <= b * b ↔ a <= b.
Proof. intros. split; intros; nra. Qed.

Section Tube.
Variables (k : tube_type) (m M Z s d : R).
Hypothesis Hm : 0 <= m < M.
Hypothesis HZ : 0 < Z.
Hypothesis Hd : 0 < d <= 2 * PI.
Hypothesis Hk : tube_fits k m d.
Let t := tb m M Z s d.
Lemma phi_eq : tube_phi k t = rltb d (2 * PI).
Proof using Hm HZ Hd Hk.
  pose proof PI_RGT_0. unfold tube_phi. assert (A : angle_fits (sector_type k) d) by (destruct k; cbn in *; tauto).
  change (tb_dphi t) with d. destruct (sector_type k); cbn in A; destruct (rltb_spec d (2 * PI)); try done; lra.
Qed.
Lemma hole_eq : tube_hole k t = rgtb m 0.
Proof using Hm HZ Hd Hk. unfold tube_hole. change (tb_rmin t) with m. destruct k; cbn in Hk; [done| |done]. destruct Hk as [-> _]. destruct (rgtb_spec 0 0); [lra|done]. Qed.
Lemma in_sector_spec (include : bool) x y : d < 2 * PI → let h := if include then - kHalfTolerance else kHalfTolerance in
  in_sector k t include x y = true ↔ (d <= PI → h <= side s x y ∧ side (s + d) x y <= - h) ∧ (PI < d → h <= side s x y ∨ side (s + d) x y <= - h).
Proof using Hm HZ Hd Hk.
  intros Hp h. pose proof PI_RGT_0. unfold in_sector. cbv zeta. fold h.
  replace (- x * tb_a1y t + y * tb_a1x t) with (side s x y) by (unfold side; cbn; ring).
  replace (- tb_a2x t * y + tb_a2y t * x) with (- side (s + d) x y) by (unfold side; cbn; ring).
  assert (E : match sector_type k with kUnknownAngle => rleb (tb_dphi t) PI | kOnePi | kSmallerThanPi => true | _ => false end = rleb d PI).
  { change (tb_dphi t) with d. assert (A : angle_fits (sector_type k) d) by (destruct k; cbn in *; tauto). destruct (sector_type k); cbn in A; destruct (rleb_spec d PI); try done; lra. }
  rewrite E. destruct (rleb_spec d PI) as [Hp'|Hp']; destruct (rgeb_spec (side s x y) h) as [H1|H1]; destruct (rgeb_spec (- side (s + d) x y) h) as [H2|H2]; cbn;
    (split; [intros F; try discriminate F; split; intros; lra|intros [A B]; try reflexivity; try (specialize (A Hp')); try (specialize (B ltac:(lra))); exfalso; lra]).
Qed.
Lemma sector_test x y : d < 2 * PI → in_sector k t true x y = true ↔ wide_sector kHalfTolerance s d x y.
Proof using Hm HZ Hd Hk. intros Hp. rewrite in_sector_spec by done. cbv zeta. unfold wide_sector. rewrite Ropp_involutive. done. Qed.

(** * Classes *)
Lemma r2_rho p : vx p * vx p + vy p * vy p = rho p * rho p.
Proof using. rewrite rho_sqr. done. Qed.
Lemma contains_solid p : tube_contains k t p = true ↔ tube_solid m M Z s d p.
Proof using Hm HZ Hd Hk.
  unfold tube_contains, tube_kernel. cbv zeta. rewrite phi_eq, hole_eq. cbn [andb plus_tol minus_tol plus_tol_sq minus_tol_sq]. rewrite r2_rho.
  change (tb_z t) with Z. change (tb_rmax t) with M. change (tb_rmin t) with m. change (tb_wedge t) with (mk_wedge d s).
  pose proof (rho_nonneg p) as Hr. unfold tube_solid.
  destruct (rgtb_spec (Rabs (vz p)) Z); cbn [snd negb]; [split; [done|intros (? & _); lra]|].
  destruct (rgtb_spec (rho p * rho p) (M * M)) as [HM|HM]; cbn [snd negb orb]; [split; [done|intros (_ & ? & _); nra]|].
  assert (rho p <= M) by (apply sqr_le; lra).
  pose proof (wedge_contains_sector d s (vx p) (vy p) Hd) as Hw. unfold wedge_contains in Hw.
  assert (Hh : m = 0 ∨ 0 < m) by lra. destruct (rgtb_spec m 0) as [H0|H0]; cbn [andb].
  - destruct (rleb_spec (rho p * rho p) (m * m)) as [Hi|Hi]; cbn [snd negb orb]; [split; [done|intros (_ & _ & K & _); specialize (K ltac:(lra)); nra]|].
    assert (m < rho p) by (apply sqr_lt; lra).
    destruct (rltb_spec d (2 * PI)); cbn [snd orb negb]; [rewrite Hw|]; split; try tauto; intros; repeat split; auto; try lra; intros; exfalso; lra.
  - destruct (rltb_spec d (2 * PI)); cbn [snd orb negb]; [rewrite Hw|]; split; try tauto; intros; repeat split; auto; try lra; intros; exfalso; lra.
Qed.
(** The two answers of the kernel with the tolerance. *)
Lemma inside_in p : tube_inside k t p = kInside ↔ Rabs (vz p) < Z - kHalfTolerance ∧ rho p * rho p < Rabs (M * (M - 2 * kTolerance)) ∧
  (0 < m → m * (m + 2 * kTolerance) < rho p * rho p) ∧ (d < 2 * PI → sector s d (vx p) (vy p) ∧ ¬ on_side d s (vx p) (vy p)).
Proof using Hm HZ Hd Hk.
  pose proof kTolerance_pos. pose proof kHalfTolerance_pos.
  unfold tube_inside, tube_kernel. cbv zeta. rewrite phi_eq, hole_eq. cbn [andb plus_tol minus_tol plus_tol_sq minus_tol_sq]. rewrite r2_rho.
  change (tb_z t) with Z. change (tb_rmax t) with M. change (tb_rmin t) with m. change (tb_wedge t) with (mk_wedge d s).
  pose proof (without_boundary d s (vx p) (vy p) Hd) as Hw. unfold contains_without_boundary in Hw.
  destruct (rgtb_spec (Rabs (vz p)) (Z + kHalfTolerance)) as [K|K]; [destruct (rltb_spec (Rabs (vz p)) (Z - kHalfTolerance)); [exfalso; lra|]; split; [done|tauto]|].
  destruct (rgtb_spec (rho p * rho p) (M * (M + 2 * kTolerance))) as [K1|K1]; cbn [orb].
  { assert (Rabs (M * (M - 2 * kTolerance)) <= M * (M + 2 * kTolerance)) by (apply Rabs_le; nra).
    destruct (rltb_spec (rho p * rho p) (Rabs (M * (M - 2 * kTolerance)))); [exfalso; lra|]. rewrite andb_false_r. split; [done|]. intros (_ & ? & _). exfalso; lra. }
  destruct (rltb_spec (Rabs (vz p)) (Z - kHalfTolerance)) as [Kz|Kz]; cbn [andb];
    [|split; [destruct (rgtb m 0 && _); [done|]; destruct (rltb d (2 * PI)); cbn [fst andb]; [destruct (orb _ _)|]; done|intros (? & _); exfalso; lra]].
  destruct (rltb_spec (rho p * rho p) (Rabs (M * (M - 2 * kTolerance)))) as [Kr|Kr]; cbn [andb];
    [|split; [destruct (rgtb m 0 && _); [done|]; destruct (rltb d (2 * PI)); cbn [fst andb]; [destruct (orb _ _)|]; done|intros (_ & ? & _); exfalso; lra]].
  destruct (rgtb_spec m 0) as [Hh|Hh]; cbn [andb negb orb].
  - destruct (rleb_spec (rho p * rho p) (Rabs (m * (m - 2 * kTolerance)))) as [Ki|Ki]; destruct (rgtb_spec (rho p * rho p) (m * (m + 2 * kTolerance))) as [Kj|Kj].
    + exfalso. assert (Rabs (m * (m - 2 * kTolerance)) <= m * (m + 2 * kTolerance)) by (apply Rabs_le; nra). lra.
    + split; [done|]. intros (_ & _ & Q & _). specialize (Q ltac:(lra)). exfalso; lra.
    + destruct (rltb_spec d (2 * PI)) as [Kd|Kd].
      * destruct (fst (wedge_kernel _ true _ _)); cbn [andb]; [|destruct (snd _); cbn]; split; try done; try (intros (_ & _ & _ & Q); apply Hw in Q; [done|lra]).
        intros _. repeat split; try lra; intros; try lra; by apply Hw.
      * split; [|done]. intros _. repeat split; try lra; intros; lra.
    + split; [destruct (rltb d (2 * PI)); cbn [fst andb]; [destruct (orb _ _)|]; done|]. intros (_ & _ & Q & _). specialize (Q ltac:(lra)). exfalso; lra.
  - destruct (rltb_spec d (2 * PI)) as [Kd|Kd].
    + destruct (fst (wedge_kernel _ true _ _)); cbn [andb]; [|destruct (snd _); cbn]; split; try done; try (intros (_ & _ & _ & Q); apply Hw in Q; [done|lra]).
      intros _. repeat split; try lra; intros; try lra; by apply Hw.
    + split; [|done]. intros _. repeat split; try lra; intros; lra.
Qed.
Lemma inside_out p : tube_inside k t p = kOutside ↔ Z + kHalfTolerance < Rabs (vz p) ∨ M * (M + 2 * kTolerance) < rho p * rho p ∨
  (0 < m ∧ rho p * rho p <= Rabs (m * (m - 2 * kTolerance))) ∨ (d < 2 * PI ∧ ¬ sector s d (vx p) (vy p) ∧ ¬ on_side d s (vx p) (vy p)).
Proof using Hm HZ Hd Hk.
  pose proof (inside_in p) as HI. pose proof kTolerance_pos. pose proof kHalfTolerance_pos.
  assert (S : tube_inside k t p = kOutside ↔ snd (tube_kernel k t true p) = true ∧ ¬ tube_inside k t p = kInside).
  { unfold tube_inside. destruct (tube_kernel k t true p) as [[] []]; cbn; intuition discriminate. }
  rewrite S, HI. clear S HI.
  assert (E1 : Rabs (M * (M - 2 * kTolerance)) <= M * (M + 2 * kTolerance)) by (apply Rabs_le; nra).
  assert (E2 : Rabs (m * (m - 2 * kTolerance)) <= m * (m + 2 * kTolerance)) by (apply Rabs_le; nra).
  unfold tube_kernel. cbv zeta. rewrite phi_eq, hole_eq. cbn [andb plus_tol minus_tol plus_tol_sq minus_tol_sq]. rewrite r2_rho.
  change (tb_z t) with Z. change (tb_rmax t) with M. change (tb_rmin t) with m. change (tb_wedge t) with (mk_wedge d s).
  pose proof (inside_cases d s (vx p) (vy p) Hd) as Hw. unfold wedge_inside in Hw.
  assert (Hws : snd (wedge_kernel (mk_wedge d s) true (vx p) (vy p)) = true ↔ ¬ sector s d (vx p) (vy p) ∧ ¬ on_side d s (vx p) (vy p)).
  { pose proof (with_boundary d s (vx p) (vy p) Hd) as Hb. unfold contains_with_boundary in Hb. destruct (snd (wedge_kernel (mk_wedge d s) true (vx p) (vy p))); cbn in Hb; [split; [intros _; split; intros K; by assert (false = true) by (apply Hb; auto)|done]|]. split; [done|]. intros [A B]. destruct Hb as [Hb _]. destruct (Hb eq_refl); contradiction. }
  clear Hw.
  destruct (rgtb_spec (Rabs (vz p)) (Z + kHalfTolerance)) as [K|K]; cbn [snd orb]; [split; [intros _; left; lra|intros _; split; [done|intros (? & _); lra]]|].
  destruct (rgtb_spec (rho p * rho p) (M * (M + 2 * kTolerance))) as [K1|K1]; cbn [snd orb]; [split; [intros _; right; left; lra|intros _; split; [done|intros (_ & ? & _); lra]]|].
  destruct (rgtb_spec m 0) as [Hh|Hh]; cbn [andb negb orb].
  - destruct (rleb_spec (rho p * rho p) (Rabs (m * (m - 2 * kTolerance)))) as [Ki|Ki]; cbn [snd orb].
    + split; [intros _; right; right; left; lra|]. intros _. split; [done|]. intros (_ & _ & Q & _). specialize (Q ltac:(lra)). lra.
    + destruct (rltb_spec d (2 * PI)) as [Kd|Kd]; cbn [snd].
      * rewrite Hws. split; [intros [A _]; right; right; right; split; [lra|done]|]. intros [Q|[Q|[Q|[_ Q]]]]; try (exfalso; lra). split; [done|]. intros (_ & _ & _ & F). destruct (F ltac:(lra)). tauto.
      * split; [intros [A _]; done|]. intros [Q|[Q|[Q|Q]]]; exfalso; lra.
  - destruct (rltb_spec d (2 * PI)) as [Kd|Kd]; cbn [snd].
    + rewrite Hws. split; [intros [A _]; right; right; right; split; [lra|done]|]. intros [Q|[Q|[Q|[_ Q]]]]; try (exfalso; lra). split; [done|]. intros (_ & _ & _ & F). destruct (F ltac:(lra)). tauto.
    + split; [intros [A _]; done|]. intros [Q|[Q|[Q|Q]]]; exfalso; lra.
Qed.

(** * Safeties *)
Lemma rho_dist p q : Rabs (rho p - rho q) <= vdist p q.
Proof using.
  pose proof (dist_rz p q). pose proof (vdist_nonneg p q). apply Rabs_le. pose proof (Rle_0_sqr (vz p - vz q)) as Q. unfold Rsqr in Q.
  split; [|]; nra.
Qed.
Lemma z_dist p q : Rabs (Rabs (vz p) - Rabs (vz q)) <= vdist p q.
Proof using. eapply Rle_trans; [apply Rabs_triang_inv2|]. pose proof (vz_le_mag (vsub p q)) as H. exact H. Qed.
Lemma flat_dist p q : dist2 (vx p) (vy p) (vx q) (vy q) <= vdist p q.
Proof using.
  unfold dist2, vdist, vmag. apply sqrt_le_1_alt. unfold vdot, vsub; cbn. pose proof (Rle_0_sqr (vz p - vz q)) as Q. unfold Rsqr in Q. lra.
Qed.
Lemma hole_not_hollow : rgtb m 0 = false → m = 0.
Proof using Hm. destruct (rgtb_spec m 0); [done|intros; lra]. Qed.
Lemma max_of a b : (if rgtb b a then b else a) = Rmax a b.
Proof using. destruct (rgtb_spec b a); [rewrite Rmax_right|rewrite Rmax_left]; lra. Qed.
Lemma min_of a b : (if rltb b a then b else a) = Rmin a b.
Proof using. destruct (rltb_spec b a); [rewrite Rmin_right|rewrite Rmin_left]; lra. Qed.
Lemma sqrt_rho p : R_sqrt.sqrt (vx p * vx p + vy p * vy p) = rho p.
Proof using. done. Qed.
(** The answer to the safety of the planes, when it is used. *)
Lemma phi_safety_le inf p x' y' : d < 2 * PI → in_sector k t false (vx p) (vy p) = false → sector s d x' y' →
  phi_safety inf k t p < inf → phi_safety inf k t p <= dist2 (vx p) (vy p) x' y'.
Proof using Hm HZ Hd Hk.
  intros Hp Hn Hs. pose proof PI_RGT_0. pose proof kHalfTolerance_pos as Ht. apply by_sides' in Hs; [|lra]. destruct Hs as [S1 S2].
  assert (Hn' : ¬ in_sector k t false (vx p) (vy p) = true) by (rewrite Hn; done). rewrite in_sector_spec in Hn' by done. cbv zeta in Hn'.
  unfold phi_safety, perp_dist. cbv zeta.
  replace (vx p * tb_a1y t - vy p * tb_a1x t) with (- side s (vx p) (vy p)) by (unfold side; cbn; ring).
  replace ((vx p * tb_a2y t - vy p * tb_a2x t) * -1) with (side (s + d) (vx p) (vy p)) by (unfold side; cbn; ring).
  pose proof (side_lipschitz' s (vx p) (vy p) x' y') as L1. pose proof (side_lipschitz (s + d) (vx p) (vy p) x' y') as L2.
  set (a := side s (vx p) (vy p)) in *. set (b := side (s + d) (vx p) (vy p)) in *.
  assert (A : angle_fits (sector_type k) d) by (destruct k; cbn in *; tauto). change (tb_dphi t) with d. rewrite sqrt_rho. pose proof (rho_nonneg p).
  destruct (Rle_dec d PI) as [Hpi|Hpi].
  - specialize (S1 Hpi).
    assert (I : match sector_type k with kUnknownAngle => rgtb d PI | kBiggerThanPi => true | _ => false end = false) by (destruct (sector_type k); cbn in A; try done; [lra|destruct (rgtb_spec d PI); [lra|done]]).
    rewrite I. assert (G : ∀ x, ((if rgtb b (- kHalfTolerance) && rltb b (if rgtb (- a) (- kHalfTolerance) && rltb (- a) inf then - a else inf) then b else (if rgtb (- a) (- kHalfTolerance) && rltb (- a) inf then - a else inf)) = x → x < inf → x <= dist2 (vx p) (vy p) x' y')).
    { intros x <-. destruct (rgtb (- a) (- kHalfTolerance) && rltb (- a) inf); destruct (rgtb b _ && rltb b _); intros; lra. }
    destruct (sector_type k) eqn:Ek; try (apply G; reflexivity). cbn in A.
    destruct (rgtb_spec (Rabs (- a)) kHalfTolerance) as [K|K]; [|lra]. intros _. assert (b = - a) by (unfold b, a; rewrite A; apply side_flip).
    destruct (Rle_dec a (- kHalfTolerance)); [rewrite Rabs_right; lra|]. destruct (Rle_dec kHalfTolerance a); [exfalso; apply Hn'; split; intros; lra|]. exfalso. revert K. apply Rle_not_gt. apply Rabs_le. lra.
  - specialize (S2 ltac:(lra)).
    assert (I : match sector_type k with kUnknownAngle => rgtb d PI | kBiggerThanPi => true | _ => false end = true) by (destruct (sector_type k); cbn in A; try done; try lra; destruct (rgtb_spec d PI); [done|lra]).
    rewrite I. assert (Ha : - kHalfTolerance < - a) by (apply Rnot_le_lt; intros K; apply Hn'; split; intros; lra).
    assert (Hb : - kHalfTolerance < b) by (apply Rnot_le_lt; intros K; apply Hn'; split; intros; lra).
    destruct (rgtb_spec (- a) (- kHalfTolerance)); [|lra]. destruct (rgtb_spec b (- kHalfTolerance)); [|lra]. cbn [andb].
    assert (G : ∀ c, (if rltb b (if rltb (- a) c then - a else c) then b else (if rltb (- a) c then - a else c)) <= dist2 (vx p) (vy p) x' y').
    { intros c. destruct (rltb_spec (- a) c); destruct (rltb_spec b (if rltb (- a) c then - a else c)) as [|]; destruct S2; try lra;
      repeat match goal with H : context [rltb ?x ?y] |- _ => destruct (rltb_spec x y) end; try lra; rcase; lra. }
    intros _. destruct (sector_type k); try apply G; cbn in A; lra.
Qed.
Lemma tube_safety_in_le inf p q : tube_closed m M Z s d q → tube_safety_in inf k t p <= vdist p q.
Proof using Hm HZ Hd Hk.
  intros (Hz & Hr & Hs). unfold tube_safety_in. cbv zeta. rewrite phi_eq, hole_eq, sqrt_rho. change (tb_z t) with Z. change (tb_rmax t) with M. change (tb_rmin t) with m.
  pose proof (rho_dist p q) as D1. pose proof (z_dist p q) as D2. pose proof (flat_dist p q) as D3.
  apply abs_le in D1, D2. rewrite max_of.
  set (a := Rmax (Rabs (vz p) - Z) (rho p - M)). assert (Ha : a <= vdist p q) by (unfold a; apply Rmax_lub; lra).
  set (b := if rgtb m 0 && rgtb (m - rho p) a then m - rho p else a). assert (Hb : b <= vdist p q) by (unfold b; destruct (rgtb m 0 && _); lra).
  destruct (rltb_spec d (2 * PI)) as [K|K]; cbn [negb]; [|done].
  destruct (in_sector k t false (vx p) (vy p)) eqn:E; [done|].
  destruct (rltb_spec (phi_safety inf k t p) inf) as [Hi|Hi]; cbn [andb]; [|done]. destruct (rgtb_spec (phi_safety inf k t p) b); [|done].
  pose proof (phi_safety_le inf p (vx q) (vy q) K E (Hs K) Hi). lra.
Qed.
Lemma tube_safety_in_sign inf p : tube_closed m M Z s d p → tube_safety_in inf k t p <= 0.
Proof using Hm HZ Hd Hk. intros H. pose proof (tube_safety_in_le inf p p H) as K. rewrite vdist_refl in K. done. Qed.
Lemma tube_safety_out_eq p : tube_safety_out k t p =
  let a := Rmin (Z - Rabs (vz p)) (M - rho p) in
  let b := if rgtb m 0 then Rmin a (rho p - m) else a in
  if rltb d (2 * PI) then Rmin b (wedge_safety_out (mk_wedge d s) (vx p) (vy p)) else b.
Proof using Hm HZ Hd Hk.
  unfold tube_safety_out. cbv zeta. rewrite phi_eq, hole_eq, sqrt_rho. change (tb_z t) with Z. change (tb_rmax t) with M. change (tb_rmin t) with m. change (tb_wedge t) with (mk_wedge d s).
  rewrite !min_of. destruct (rgtb m 0); cbn [andb]; rewrite ?min_of; destruct (rltb d (2 * PI)); cbn [negb]; by rewrite ?min_of.
Qed.
Lemma tube_safety_out_le p q : ¬ tube_solid m M Z s d q → tube_safety_out k t p <= vdist p q.
Proof using Hm HZ Hd Hk.
  intros Hq. rewrite tube_safety_out_eq. cbv zeta.
  pose proof (rho_dist p q) as D1. pose proof (z_dist p q) as D2. pose proof (flat_dist p q) as D3. apply abs_le in D1, D2.
  set (a := Rmin (Z - Rabs (vz p)) (M - rho p)). assert (a <= Z - Rabs (vz p) ∧ a <= M - rho p) as [A1 A2] by (split; [apply Rmin_l|apply Rmin_r]).
  set (b := if rgtb m 0 then Rmin a (rho p - m) else a). assert (B : b <= a) by (unfold b; destruct (rgtb m 0); [apply Rmin_l|lra]).
  assert (B' : 0 < m → b <= rho p - m) by (intros; unfold b; destruct (rgtb_spec m 0); [apply Rmin_r|lra]).
  set (c := if rltb d (2 * PI) then Rmin b _ else b). assert (C : c <= b) by (unfold c; destruct (rltb d (2 * PI)); [apply Rmin_l|lra]).
  assert (C' : d < 2 * PI → c <= wedge_safety_out (mk_wedge d s) (vx p) (vy p)) by (intros; unfold c; destruct (rltb_spec d (2 * PI)); [apply Rmin_r|lra]).
  destruct (Rle_dec (Rabs (vz q)) Z); [|lra]. destruct (Rle_dec (rho q) M); [|lra].
  destruct (Rle_dec m 0) as [M0|M0].
  - destruct (Rlt_dec d (2 * PI)) as [Hp|Hp].
    + specialize (C' Hp). assert (¬ sector s d (vx q) (vy q)) as Hs by (intros K; apply Hq; repeat split; try lra; intros; done).
      pose proof (safety_out_le d s (vx p) (vy p) (vx q) (vy q) Hd Hs). lra.
    + exfalso. apply Hq. repeat split; try lra; intros; lra.
  - specialize (B' ltac:(lra)). destruct (Rle_dec (rho q) m); [lra|]. destruct (Rlt_dec d (2 * PI)) as [Hp|Hp].
    + specialize (C' Hp). assert (¬ sector s d (vx q) (vy q)) as Hs by (intros K; apply Hq; repeat split; try lra; intros; done).
      pose proof (safety_out_le d s (vx p) (vy p) (vx q) (vy q) Hd Hs). lra.
    + exfalso. apply Hq. repeat split; try lra; intros; lra.
Qed.
Lemma tube_safety_out_sign p : tube_closed m M Z s d p → 0 <= tube_safety_out k t p.
Proof using Hm HZ Hd Hk.
  intros (Hz & Hr & Hs). rewrite tube_safety_out_eq. cbv zeta.
  assert (0 <= Rmin (Z - Rabs (vz p)) (M - rho p)) by (apply Rmin_glb; lra).
  assert (B : 0 <= (if rgtb m 0 then Rmin (Rmin (Z - Rabs (vz p)) (M - rho p)) (rho p - m) else Rmin (Z - Rabs (vz p)) (M - rho p))) by (destruct (rgtb m 0); [apply Rmin_glb; lra|done]).
  destruct (rltb_spec d (2 * PI)) as [K|K]; [|done]. apply Rmin_glb; [done|]. specialize (Hs K). apply sector_sides in Hs; [|lra]. destruct Hs as [S1 S2].
  unfold wedge_safety_out. cbv zeta. rewrite n1_side, n2_side. cbn [mk_wedge wd_dphi]. destruct (rltb_spec d PI) as [L|L].
  - destruct (S1 L). apply Rmin_glb; lra.
  - destruct (S2 ltac:(lra)); [eapply Rle_trans; [|apply Rmax_l]|eapply Rle_trans; [|apply Rmax_r]]; lra.
Qed.
Lemma tube_safety_in_full inf p : d = 2 * PI → tube_safety_in inf k t p =
  let a := Rmax (Rabs (vz p) - Z) (rho p - M) in if rgtb m 0 then Rmax a (m - rho p) else a.
Proof using Hm HZ Hd Hk.
  intros E. unfold tube_safety_in. cbv zeta. rewrite phi_eq, hole_eq, sqrt_rho. change (tb_z t) with Z. change (tb_rmax t) with M. change (tb_rmin t) with m.
  destruct (rltb_spec d (2 * PI)); [lra|]. cbn [negb]. rewrite max_of. destruct (rgtb m 0); cbn [andb]; by rewrite ?max_of.
Qed.
End Tube.
