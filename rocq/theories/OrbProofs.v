(** Orbs: proofs. *)
From Coq Require Import Reals Lra Lia Bool.
From stdpp Require Import base tactics.
From Verif Require Import Real3 BoxModel WedgeProofs OrbModel OrbSpec.
Local Open Scope R_scope.

Lemma sqr_lt_lt a b : 0 <= b -> a * a < b * b -> a < b.
Proof. intros Hb H. destruct (Rlt_le_dec a b); auto. exfalso. nra. Qed.
Lemma dist_zero p : vdist p vzero = vmag p.
Proof. unfold vdist. f_equal. apply v3_eq; cbn; ring. Qed.
Lemma mag_le p r : 0 <= r -> vdot p p <= r * r <-> vmag p <= r.
Proof. intros Hr. pose proof (vmag_nonneg p). rewrite <- vmag_sqr. split; intros; [by apply sqr_le_le|nra]. Qed.
Lemma mag_lt p r : 0 <= r -> vdot p p < r * r <-> vmag p < r.
Proof. intros Hr. pose proof (vmag_nonneg p). rewrite <- vmag_sqr. split; intros; [by apply sqr_lt_lt|nra]. Qed.
Lemma ball_sqr r p : 0 <= r -> ball r p <-> vdot p p <= r * r.
Proof. intros Hr. unfold ball. rewrite dist_zero. by rewrite mag_le. Qed.
Lemma along_sqr p d u : vdot d d = 1 -> vdot (along p d u) (along p d u) = vdot p p + 2 * u * vdot p d + u * u.
Proof. intros Hd. replace (vdot (along p d u) (along p d u)) with (vdot p p + 2 * u * vdot p d + u * u * vdot d d) by (unfold vdot, along, vadd, vscale; cbn; ring). rewrite Hd. ring. Qed.

Lemma kernel_in r p : kTolerance <= r -> fst (orb_kernel r p) = true <-> vdist p vzero <= r - kTolerance.
Proof. intros Hr. unfold orb_kernel. cbn. rewrite dist_zero, rleb_true. apply mag_le. lra. Qed.
Lemma kernel_out r p : 0 <= r -> snd (orb_kernel r p) = true <-> r + kTolerance <= vdist p vzero.
Proof.
  intros Hr. pose proof kTolerance_pos. unfold orb_kernel. cbn. rewrite dist_zero. unfold rgeb. rewrite rleb_true.
  pose proof (mag_lt p (r + kTolerance) ltac:(lra)). split; intros K; apply Rnot_lt_le; intros L; apply H0 in L; lra.
Qed.
Lemma inside_cases r p : kTolerance <= r ->
  match orb_inside r p with
  | kInside => vdist p vzero <= r - kTolerance
  | kOutside => r + kTolerance <= vdist p vzero
  | kSurface => r - kTolerance < vdist p vzero < r + kTolerance
  end.
Proof.
  intros Hr. pose proof kTolerance_pos. pose proof (kernel_in r p Hr) as A. pose proof (kernel_out r p ltac:(lra)) as B. unfold orb_inside.
  destruct (orb_kernel r p) as [[] o]; cbn in *; [by apply A|]. destruct o; [by apply B|].
  split; apply Rnot_le_lt; intros K; [apply A in K|apply B in K]; done.
Qed.
Lemma contains_iff r p : 0 <= r -> orb_contains r p = true <-> vdist p vzero < r + kTolerance.
Proof.
  intros Hr. pose proof (kernel_out r p Hr) as B. unfold orb_contains. rewrite negb_true_iff. destruct (snd (orb_kernel r p)); split; intros K; try done.
  - pose proof (proj1 B eq_refl). lra.
  - apply Rnot_le_lt. intros L. apply B in L. done.
Qed.

(** * Rays *)
Section ray.
Variables (inf r : R) (p d : v3).
Hypothesis Hr : 0 < r.
Hypothesis Hd : vdot d d = 1.
Let b := vdot p d.
Let c := vdot p p - r * r.
Lemma along_ball u : ball r (along p d u) <-> u * u + 2 * b * u + c <= 0.
Proof using Hr Hd. rewrite ball_sqr by lra. rewrite along_sqr by done. unfold b, c. split; lra. Qed.
Lemma to_in_outside : r < vmag p -> (first_in (ball r) p d (orb_to_in inf r p d)) \/
  (vmag p <= r + kTolerance /\ b < 0 /\ orb_to_in inf r p d = 0) \/ (orb_to_in inf r p d = inf /\ forall u, 0 <= u -> ~ ball r (along p d u)).
Proof using Hr Hd.
  intros Hp. pose proof kTolerance_pos. assert (Hc : 0 < c). { unfold c. rewrite <- vmag_sqr. nra. }
  unfold orb_to_in. cbn zeta. destruct (rltb_spec (vmag p) (r - kTolerance)) as [K|K]; [lra|]. unfold on_shell.
  destruct (rgeb_spec (vmag p) (r - kTolerance)) as [_|L]; [|lra]. cbn [andb]. fold b.
  destruct (rleb_spec (vmag p) (r + kTolerance)) as [M|M]; cbn [andb].
  - destruct (rltb_spec b 0) as [B|B]; [right; left; done|]. unfold detect. cbn zeta. fold b. fold c.
    right; right. assert (Hx : rleb b 0 = true -> b = 0) by (intros E; apply rleb_true in E; lra).
    assert (Hno : forall u, 0 <= u -> ~ ball r (along p d u)) by (intros u Hu; rewrite along_ball; nra).
    destruct (rgeb_spec (b * b - c) 0) as [D|D]; cbn [andb]; [|done]. destruct (rleb b 0) eqn:E; [|done]. exfalso. specialize (Hx eq_refl). nra.
  - unfold detect. cbn zeta. fold b. fold c. destruct (rgeb_spec (b * b - c) 0) as [D|D]; cbn [andb].
    + destruct (rleb_spec b 0) as [B|B].
      * left. rewrite Rabs_pos_eq by lra. pose proof (sqrt_sqrt (b * b - c) ltac:(lra)) as Hs. pose proof (sqrt_pos (b * b - c)) as Hs0. set (s := sqrt (b * b - c)) in *.
        assert (s < - b) by (apply sqr_lt_lt; nra). split; [lra|]. split; [apply along_ball; nra|]. intros u Hu. rewrite along_ball. nra.
      * right; right. split; [done|]. intros u Hu. rewrite along_ball. nra.
    + right; right. split; [done|]. intros u Hu. rewrite along_ball. pose proof (Rle_0_sqr (u + b)) as Q. unfold Rsqr in Q. nra.
Qed.
Lemma to_out_inside : vmag p <= r -> last_in (ball r) p d (orb_to_out inf r p d) \/
  (r - kTolerance <= vmag p /\ 0 < b /\ orb_to_out inf r p d = 0 /\ exists E, last_in (ball r) p d E /\ E * E <= 2 * r * kTolerance).
Proof using Hr Hd.
  intros Hp. pose proof kTolerance_pos. pose proof (vmag_nonneg p). assert (Hc : c <= 0). { unfold c. rewrite <- vmag_sqr. nra. }
  assert (Hdisc : 0 <= b * b - c) by nra. pose proof (sqrt_sqrt (b * b - c) Hdisc) as Hs. pose proof (sqrt_pos (b * b - c)) as Hs0.
  assert (HE : last_in (ball r) p d (- b + sqrt (b * b - c))).
  { set (s := sqrt (b * b - c)) in *. assert (Hbs : b <= s) by (apply sqr_le_le; nra). assert (Hbs' : - b <= s) by (apply sqr_le_le; nra).
    split; [lra|]. split; intros u Hu; rewrite along_ball; nra. }
  unfold orb_to_out. cbn zeta. destruct (rgtb_spec (vmag p) (r + kTolerance)) as [K|K]; [lra|].
  assert (Hdet : (let '(hit, dist) := detect false inf r p d in if hit then dist else inf) = - b + sqrt (b * b - c)).
  { unfold detect. cbn zeta. fold b. fold c. destruct (rgeb_spec (b * b - c) 0) as [D|D]; [|lra]. by rewrite Rabs_pos_eq by lra. }
  rewrite Hdet. unfold on_shell. destruct (rgeb_spec (vmag p) (r - kTolerance)) as [L|L]; cbn [andb]; [|left; done].
  destruct (rleb_spec (vmag p) (r + kTolerance)) as [M|M]; [|lra]. cbn [andb]. fold b. destruct (rgtb_spec b 0) as [B|B]; [|left; done].
  right. split; [lra|]. split; [lra|]. split; [done|]. exists (- b + sqrt (b * b - c)). split; [done|]. set (s := sqrt (b * b - c)) in *.
  assert (Hcb : - c <= 2 * r * kTolerance). { unfold c. rewrite <- vmag_sqr. destruct (Rle_dec kTolerance r); nra. }
  assert (Hbs : b <= s) by (apply sqr_le_le; nra). nra.
Qed.
(** From the outer shell, moving in. *)
Lemma to_out_shell : r < vmag p <= r + kTolerance -> b <= 0 ->
  (orb_to_out inf r p d = inf /\ forall u, ~ ball r (along p d u)) \/
  (0 <= orb_to_out inf r p d /\ sphere r (along p d (orb_to_out inf r p d)) /\ forall u, orb_to_out inf r p d < u -> ~ ball r (along p d u)).
Proof using Hr Hd.
  intros Hp Hb. pose proof kTolerance_pos. assert (Hc : 0 < c). { unfold c. rewrite <- vmag_sqr. nra. }
  unfold orb_to_out. cbn zeta. destruct (rgtb_spec (vmag p) (r + kTolerance)) as [K|K]; [lra|]. fold b.
  destruct (rgtb_spec b 0) as [B|B]; [lra|]. rewrite andb_false_r. unfold detect. cbn zeta. fold b. fold c.
  destruct (rgeb_spec (b * b - c) 0) as [D|D]; [right|left].
  - rewrite Rabs_pos_eq by lra. pose proof (sqrt_sqrt (b * b - c) ltac:(lra)) as Hs. pose proof (sqrt_pos (b * b - c)) as Hs0. set (s := sqrt (b * b - c)) in *.
    split; [lra|]. split; [|intros u Hu; rewrite along_ball; nra].
    unfold sphere. rewrite dist_zero. unfold vmag. rewrite along_sqr by done. fold b. replace (vdot p p) with (c + r * r) by (unfold c; ring).
    replace (c + r * r + 2 * (- b + s) * b + (- b + s) * (- b + s)) with (r * r + (s * s - (b * b - c))) by ring. rewrite Hs.
    replace (r * r + (b * b - c - (b * b - c))) with (r * r) by ring. apply sqrt_square. lra.
  - split; [done|]. intros u. rewrite along_ball. pose proof (Rle_0_sqr (u + b)) as Q. unfold Rsqr in Q. nra.
Qed.
End ray.

(** * Safeties *)
Lemma mag_triangle p q : vmag p <= vmag q + vdist p q.
Proof. rewrite <- !dist_zero. pose proof (vdist_triangle p q vzero). lra. Qed.
Lemma safety_in_le r p q : ball r q -> orb_safety_in r p <= vdist p q.
Proof.
  unfold ball. rewrite dist_zero. intros Hq. pose proof (mag_triangle p q). pose proof (vdist_nonneg p q). unfold orb_safety_in. cbn zeta.
  destruct (rltb _ _); [lra|]. destruct (_ && _); lra.
Qed.
Lemma safety_out_le r p q : ~ ball r q -> orb_safety_out r p <= vdist p q.
Proof.
  unfold ball. rewrite dist_zero. intros Hq. pose proof (mag_triangle q p). rewrite (vdist_comm q p) in H. pose proof (vdist_nonneg p q). unfold orb_safety_out. cbn zeta.
  destruct (rgtb _ _); [lra|]. destruct (_ && _); lra.
Qed.
(** The point of the sphere of radius [k] in the direction of [p]. *)
Lemma radial p k : 0 < vmag p -> 0 <= k -> let q := vscale (k / vmag p) p in vmag q = k /\ vdist p q = Rabs (vmag p - k).
Proof.
  intros Hp Hk q. assert (Hq : 0 <= k / vmag p) by (apply Rmult_le_pos; [done|]; left; by apply Rinv_0_lt_compat). split.
  - unfold q. rewrite vmag_scale, Rabs_pos_eq by done. field. lra.
  - unfold vdist. replace (vsub p q) with (vscale (1 - k / vmag p) p) by (apply v3_eq; cbn; ring). rewrite vmag_scale.
    rewrite <- (Rabs_pos_eq (vmag p)) at 2 by lra. rewrite <- Rabs_mult. f_equal. field. lra.
Qed.
Lemma safety_in_tight r p : 0 <= r -> r + kTolerance <= vmag p -> exists q, ball r q /\ vdist p q = orb_safety_in r p.
Proof.
  intros Hr Hp. pose proof kTolerance_pos. destruct (radial p r ltac:(lra) Hr) as [A B]. exists (vscale (r / vmag p) p). split; [unfold ball; rewrite dist_zero; lra|].
  rewrite B. rewrite Rabs_pos_eq by lra. unfold orb_safety_in. cbn zeta. destruct (rltb_spec (vmag p) (r - kTolerance)); [lra|].
  destruct (rltb_spec (vmag p) (r + kTolerance)); [lra|]. by rewrite andb_false_r.
Qed.
Lemma safety_out_tight r p e : 0 < r -> vmag p <= r - kTolerance -> 0 < e -> exists q, ~ ball r q /\ vdist p q < orb_safety_out r p + e.
Proof.
  intros Hr Hp He. pose proof kTolerance_pos. pose proof (vmag_nonneg p) as H0.
  assert (Hs : orb_safety_out r p = r - vmag p).
  { unfold orb_safety_out. cbn zeta. destruct (rgtb_spec (vmag p) (r + kTolerance)); [lra|]. by destruct (rgtb_spec (vmag p) (r - kTolerance)); [lra|]. }
  rewrite Hs. destruct (Req_dec (vmag p) 0) as [E|E].
  - exists (V3 (r + e / 2) 0 0). assert (Hm : vmag (V3 (r + e / 2) 0 0) = r + e / 2) by (unfold vmag, vdot; cbn; rewrite !Rmult_0_l, !Rplus_0_r; apply sqrt_square; lra).
    unfold ball. rewrite dist_zero, Hm. split; [lra|]. pose proof (vdist_triangle p vzero (V3 (r + e / 2) 0 0)) as T. rewrite (vdist_comm vzero), !dist_zero, Hm, E in T. lra.
  - destruct (radial p (r + e / 2) ltac:(lra) ltac:(lra)) as [A B]. exists (vscale ((r + e / 2) / vmag p) p). unfold ball. rewrite dist_zero, A. split; [lra|].
    rewrite B. rewrite Rabs_left1 by lra. lra.
Qed.
(** * Normals, extent, sampling *)
Lemma normal_valid r p : kTolerance <= r -> fst (orb_normal r p) = true <-> r - kTolerance <= vmag p <= r + kTolerance.
Proof.
  intros Hr. pose proof kTolerance_pos. unfold orb_normal. cbn [fst]. rewrite andb_true_iff. unfold rgeb. rewrite !rleb_true.
  rewrite (mag_le p (r + kTolerance)) by lra. pose proof (mag_lt p (r - kTolerance) ltac:(lra)).
  split; intros [A B].
  - split; [apply Rnot_lt_le; intros L; apply H0 in L; lra|done].
  - split; [done|]. apply Rnot_lt_le. intros L. apply H0 in L. lra.
Qed.
Lemma normal_unit r p : 0 < vmag p -> vmag (snd (orb_normal r p)) = 1 /\ snd (orb_normal r p) = vscale (/ vmag p) p.
Proof.
  intros Hp. assert (E : snd (orb_normal r p) = vscale (/ vmag p) p). { unfold orb_normal. cbn [snd]. fold (vmag p). f_equal. field. lra. }
  split; [|done]. rewrite E, vmag_scale, Rabs_pos_eq; [field; lra|]. left. by apply Rinv_0_lt_compat.
Qed.
Lemma normal_supports r p q : 0 < vmag p -> vmag q <= vmag p -> vdot (snd (orb_normal r p)) (vsub q p) <= 0.
Proof.
  intros Hp Hq. destruct (normal_unit r p Hp) as [_ ->]. replace (vdot (vscale (/ vmag p) p) (vsub q p)) with (/ vmag p * (vdot p q - vdot p p)) by (unfold vdot, vscale, vsub; cbn; ring).
  pose proof (vdot_le p q). rewrite <- (vmag_sqr p). assert (0 < / vmag p) by (by apply Rinv_0_lt_compat).
  assert (vdot p q - vmag p * vmag p <= 0) by nra. nra.
Qed.
Lemma extent_bounds r p : ball r p -> in_box (fst (extent r)) (snd (extent r)) p.
Proof.
  unfold ball. rewrite dist_zero. intros Hp. pose proof (abs_le_inv _ _ (vx_le_mag p)). pose proof (abs_le_inv _ _ (vy_le_mag p)). pose proof (abs_le_inv _ _ (vz_le_mag p)).
  unfold in_box, extent. cbn. lra.
Qed.
Lemma sample_on_sphere r phi ct : 0 <= r -> -1 <= ct <= 1 -> sphere r (sample_point r phi ct).
Proof.
  intros Hr Hc. unfold sphere. rewrite dist_zero. unfold vmag, sample_point. cbn zeta. set (s := sqrt (1 - ct * ct)).
  assert (Hs : s * s = 1 - ct * ct) by (apply sqrt_sqrt; nra). pose proof (sin2_cos2 phi) as Ht. unfold Rsqr in Ht.
  replace (vdot _ _) with (r * r * (s * s * (sin phi * sin phi + cos phi * cos phi) + ct * ct)) by (unfold vdot; cbn; ring). rewrite Ht, Hs.
  replace (r * r * ((1 - ct * ct) * 1 + ct * ct)) with (r * r) by ring. by apply sqrt_square.
Qed.
Lemma sample_onto r p : 0 < r -> sphere r p -> exists phi ct, 0 <= phi < 2 * PI /\ -1 <= ct <= 1 /\ sample_point r phi ct = p.
Proof.
  unfold sphere. rewrite dist_zero. intros Hr Hp. pose proof (vmag_sqr p) as Hq. rewrite Hp in Hq. unfold vdot in Hq.
  destruct (polar 0 (vx p) (vy p)) as (k & phi & Hk & Hphi & Ex & Ey). rewrite Rplus_0_l in *. pose proof (sin2_cos2 phi) as Ht. unfold Rsqr in Ht.
  assert (Hkk : vx p * vx p + vy p * vy p = k * k). { rewrite Ex, Ey. replace (k * k) with (k * k * (sin phi * sin phi + cos phi * cos phi)) by (rewrite Ht; ring). ring. }
  exists phi, (vz p / r). assert (Hz : - r <= vz p <= r) by nra. split; [lra|]. split.
  - split; apply (Rmult_le_reg_r r); try done; unfold Rdiv; rewrite Rmult_assoc, Rinv_l by lra; lra.
  - assert (Hs : sqrt (1 - vz p / r * (vz p / r)) = k / r).
    { replace (1 - vz p / r * (vz p / r)) with (k / r * (k / r)).
      - apply sqrt_square. apply Rmult_le_pos; [done|]. left. by apply Rinv_0_lt_compat.
      - apply (Rmult_eq_reg_r (r * r)); [|nra]. replace (k / r * (k / r) * (r * r)) with (k * k) by (field; lra).
        replace ((1 - vz p / r * (vz p / r)) * (r * r)) with (r * r - vz p * vz p) by (field; lra). lra. }
    unfold sample_point. cbn zeta. rewrite Hs. apply v3_eq; cbn; [rewrite Ex; field; lra|rewrite Ey; field; lra|field; lra].
Qed.
