(** Lemmas about the cone kernels. *)
From Coq Require Import Reals Lra Bool.
From Verif Require Import Real3 AABBModel BoxModel ConeModel ConeSpec.
Local Open Scope R_scope.

Lemma kConeTolerance_pos : 0 < kConeTolerance.
Proof. unfold kConeTolerance. lra. Qed.
Lemma perp2_nonneg p : 0 <= perp2 p.
Proof. unfold perp2. nra. Qed.
Lemma rho_nonneg p : 0 <= rho p.
Proof. apply sqrt_pos. Qed.
Lemma rho_sqr p : rho p * rho p = perp2 p.
Proof. unfold rho. apply sqrt_sqrt. apply perp2_nonneg. Qed.
Lemma rho_perp p : sqrt (perp2 p) = rho p.
Proof. reflexivity. Qed.

(** The profile lines in the code are the straight lines. *)
Lemma outer_line m1 M1 m2 M2 dz dphi w z :
  0 < dz -> 0 <= m1 < M1 -> 0 <= m2 < M2 ->
  (let c := mk_cone m1 M1 m2 M2 dz dphi w in
   if reqb (k_orig1 c) (k_orig2 c) then k_orig1 c else outer_slope c * z + outer_offset c) = line (- dz) M1 dz M2 z.
Proof.
  intros Hz H1 H2. unfold mk_cone. cbn zeta. unfold outer_slope, outer_offset, outer_slope, line. cbn.
  replace (if rltb m1 0 then 0 else m1) with m1 by (rcase; lra).
  replace (if rltb m2 0 then 0 else m2) with m2 by (rcase; lra).
  destruct (reqb_spec M1 M2) as [->|]. { field. lra. }
  rcase; try lra. field. lra.
Qed.
Lemma inner_line m1 M1 m2 M2 dz dphi w z :
  0 < dz -> 0 <= m1 < M1 -> 0 <= m2 < M2 ->
  (let c := mk_cone m1 M1 m2 M2 dz dphi w in inner_slope c * z + inner_offset c) = line (- dz) m1 dz m2 z.
Proof.
  intros Hz H1 H2. unfold mk_cone. cbn zeta. unfold inner_slope, inner_offset, inner_slope, line. cbn.
  replace (if rltb m1 0 then 0 else m1) with m1 by (rcase; lra).
  replace (if rltb m2 0 then 0 else m2) with m2 by (rcase; lra). field. lra.
Qed.
Lemma line_at z1 r1 z2 r2 z : z1 < z2 -> z1 <= z <= z2 ->
  exists u, 0 <= u <= 1 /\ (z - z1) / (z2 - z1) = u /\ line z1 r1 z2 r2 z = (1 - u) * r1 + u * r2.
Proof.
  intros H [H1 H2]. exists ((z - z1) / (z2 - z1)). split; [|split; [reflexivity|unfold line; ring]].
  split.
  - apply Rmult_le_pos; [lra|]. left. apply Rinv_0_lt_compat. lra.
  - apply (Rmult_le_reg_r (z2 - z1)); [lra|]. unfold Rdiv. rewrite Rmult_assoc, Rinv_l by lra. lra.
Qed.
Lemma line_nonneg z1 r1 z2 r2 z : z1 < z2 -> z1 <= z <= z2 -> 0 <= r1 -> 0 <= r2 -> 0 <= line z1 r1 z2 r2 z.
Proof. intros H Hz H1 H2. destruct (line_at z1 r1 z2 r2 z H Hz) as (u & Hu & _ & ->). nra. Qed.
Lemma line_le z1 r1 z2 r2 z m : z1 < z2 -> z1 <= z <= z2 -> r1 <= m -> r2 <= m -> line z1 r1 z2 r2 z <= m.
Proof. intros H Hz H1 H2. destruct (line_at z1 r1 z2 r2 z H Hz) as (u & Hu & _ & ->). nra. Qed.
Lemma line_lt z1 r1 z2 r2 s1 s2 z : z1 < z2 -> z1 <= z <= z2 -> r1 < s1 -> r2 < s2 ->
  line z1 r1 z2 r2 z < line z1 s1 z2 s2 z.
Proof.
  intros H Hz H1 H2. destruct (line_at z1 r1 z2 r2 z H Hz) as (u & Hu & E & ->).
  destruct (line_at z1 s1 z2 s2 z H Hz) as (u' & _ & E' & ->). rewrite <- E', E.
  assert (0 <= (1 - u) * (s1 - r1)) by (apply Rmult_le_pos; lra).
  destruct (Req_dec u 0) as [->|]; [lra|]. assert (0 < u * (s2 - r2)) by (apply Rmult_lt_0_compat; lra). lra.
Qed.
Lemma line_shift z1 r1 z2 r2 z s : line (z1 + s) r1 (z2 + s) r2 (z + s) = line z1 r1 z2 r2 z.
Proof.
  unfold line. replace (z + s - (z1 + s)) with (z - z1) by ring. replace (z2 + s - (z1 + s)) with (z2 - z1) by ring. reflexivity.
Qed.

Lemma cone_needs_rmin t m1 M1 m2 M2 dz dphi w :
  0 <= m1 -> 0 <= m2 -> fits t m1 m2 dphi ->
  needs_rmin t (mk_cone m1 M1 m2 M2 dz dphi w) = true <-> 0 < m1 \/ 0 < m2.
Proof.
  intros H1 H2 Hf. destruct t; cbn in *; try (split; [discriminate|intros []; lra]); try tauto.
  rcase; cbn; split; intros; try tauto; try discriminate; try lra.
Qed.
Lemma cone_needs_phi t m1 M1 m2 M2 dz dphi w : fits t m1 m2 dphi ->
  needs_phi t (mk_cone m1 M1 m2 M2 dz dphi w) = true <-> dphi < 2 * PI - 5 / 10 * / 1000000000.
Proof.
  intros Hf. destruct t; cbn in *; try (split; [discriminate|lra]); try tauto.
  unfold checked_dphi. pose proof PI_RGT_0. rcase; split; intros; try tauto; try discriminate; lra.
Qed.

(** Contains decides the cone section. *)
Lemma cone_contains_section t m1 M1 m2 M2 dz dphi w W p :
  0 < dz -> 0 <= m1 < M1 -> 0 <= m2 < M2 -> fits t m1 m2 dphi -> wedge_decides w W ->
  cone_contains t (mk_cone m1 M1 m2 M2 dz dphi w) p = true <->
  cone_section (- dz) m1 M1 dz m2 M2 p /\ in_phi dphi W p.
Proof.
  intros Hz H1 H2 Hf Hw. unfold cone_contains, cone_kernel, cone_section.
  pose proof (outer_line m1 M1 m2 M2 dz dphi w (vz p) Hz H1 H2) as Ho. cbn zeta in Ho. rewrite Ho. clear Ho.
  pose proof (inner_line m1 M1 m2 M2 dz dphi w (vz p) Hz H1 H2) as Hi. cbn zeta in Hi. rewrite Hi. clear Hi.
  assert (H1' : 0 <= m1) by lra. assert (H2' : 0 <= m2) by lra.
  pose proof (cone_needs_rmin t m1 M1 m2 M2 dz dphi w H1' H2' Hf) as Hr.
  pose proof (cone_needs_phi t m1 M1 m2 M2 dz dphi w Hf) as Hp.
  unfold in_phi. pose proof (Hw (vx p) (vy p)) as Hwp.
  replace (k_dz (mk_cone m1 M1 m2 M2 dz dphi w)) with dz by reflexivity.
  replace (k_wedge (mk_cone m1 M1 m2 M2 dz dphi w)) with w by reflexivity.
  destruct (needs_rmin t _), (needs_phi t _); cbn [plus_tol minus_tol plus_tol_sq minus_tol_sq andb orb negb fst snd].
  all: destruct (rgtb_spec (Rabs (vz p)) dz) as [Hgt|Hle]; cbn [negb fst snd orb].
  1,3,5,7: split; [discriminate|intros [[[Ha Hb] _] _]; exfalso; unfold Rabs in Hgt; destruct (Rcase_abs (vz p)); lra].
  all: assert (Hzr : - dz <= vz p <= dz) by (unfold Rabs in Hle; destruct (Rcase_abs (vz p)); lra).
  all: assert (HoN : 0 <= line (- dz) M1 dz M2 (vz p)) by (apply line_nonneg; lra).
  all: assert (HiN : 0 <= line (- dz) m1 dz m2 (vz p)) by (apply line_nonneg; lra).
  all: pose proof (rho_sqr p) as Hrs; pose proof (rho_nonneg p) as Hrn.
  all: set (o := line (- dz) M1 dz M2 (vz p)) in *; set (i := line (- dz) m1 dz m2 (vz p)) in *.
  all: destruct (rgtb_spec (perp2 p) (o * o)) as [Hg|Hg]; cbn [negb fst snd orb andb].
  1,3,5,7: split; [discriminate|intros [(_ & Ha & _) _]; exfalso; nra].
  all: assert (Hro : rho p <= o) by (apply sqr_le_le; lra).
  all: try (destruct (rleb_spec (perp2 p) (i * i)) as [Hk|Hk]; cbn [negb fst snd orb andb];
       [split; [discriminate|intros [(_ & _ & Hb) _]; exfalso; assert (Hb' : i < rho p) by (apply Hb; tauto); nra]|]).
  - assert (Hx : i < rho p) by (apply Rnot_le_lt; intros Hx; nra).
    destruct (snd (w_kernel w false (vx p) (vy p))); cbn; intuition (try discriminate; auto).
  - assert (Hx : i < rho p) by (apply Rnot_le_lt; intros Hx; nra). intuition (try discriminate; auto).
  - destruct (snd (w_kernel w false (vx p) (vy p))); cbn; intuition (try discriminate; auto).
  - intuition (try discriminate; auto).
Qed.

(** Moving by [e] changes the distance from the axis by at most [e], so the signed distance to a conical surface too. *)
Lemma rho_diff p q : (rho p - rho q) * (rho p - rho q) <= (vx p - vx q) * (vx p - vx q) + (vy p - vy q) * (vy p - vy q).
Proof.
  pose proof (rho_sqr p) as Hp; pose proof (rho_sqr q) as Hq. unfold perp2 in *.
  assert (H : vx p * vx q + vy p * vy q <= rho p * rho q).
  { apply sqr_le_le; [apply Rmult_le_pos; apply rho_nonneg|].
    replace (rho p * rho q * (rho p * rho q)) with ((rho p * rho p) * (rho q * rho q)) by ring. rewrite Hp, Hq.
    pose proof (Rle_0_sqr (vx p * vy q - vy p * vx q)). unfold Rsqr in *. nra. }
  nra.
Qed.
Lemma dist_rz p q : (rho p - rho q) * (rho p - rho q) + (vz p - vz q) * (vz p - vz q) <= vdist p q * vdist p q.
Proof. rewrite vdist_sqr. unfold vdot, vsub; cbn. pose proof (rho_diff p q). lra. Qed.
Lemma conical_lipschitz m p q :
  (m * vz p - rho p) - (m * vz q - rho q) <= sqrt (1 + m * m) * vdist p q.
Proof.
  pose proof (vdist_nonneg p q) as Hd. pose proof (sqrt_pos (1 + m * m)) as Hs.
  assert (Hs2 : sqrt (1 + m * m) * sqrt (1 + m * m) = 1 + m * m) by (apply sqrt_sqrt; nra).
  apply sqr_le_le; [apply Rmult_le_pos; auto|].
  replace (sqrt (1 + m * m) * vdist p q * (sqrt (1 + m * m) * vdist p q))
    with ((sqrt (1 + m * m) * sqrt (1 + m * m)) * (vdist p q * vdist p q)) by ring. rewrite Hs2.
  pose proof (dist_rz p q) as H.
  set (a := rho p - rho q) in *. set (b := vz p - vz q) in *.
  replace (m * vz p - rho p - (m * vz q - rho q)) with (m * b - a) by (unfold a, b; ring).
  apply Rle_trans with ((1 + m * m) * (a * a + b * b)).
  - pose proof (Rle_0_sqr (m * a + b)). unfold Rsqr in *. nra.
  - apply Rmult_le_compat_l; [nra|exact H].
Qed.
(** Dividing by NonZero(sec) keeps a bound by sec * d. *)
Lemma inv_nonzero_bound m n d : 0 <= d -> n <= sqrt (1 + m * m) * d -> n * (1 / nonzero (sqrt (1 + m * m))) <= d.
Proof.
  intros Hd Hn. set (s := sqrt (1 + m * m)) in *.
  assert (Hs : 1 <= s). { apply sqr_le_le; [apply sqrt_pos|]. unfold s. rewrite sqrt_sqrt by nra. nra. }
  unfold nonzero. destruct (rltb_spec s 0); [lra|].
  assert (0 < kTiny) by (unfold kTiny; apply Rinv_0_lt_compat, pow_lt; lra).
  apply (Rmult_le_reg_r (s + kTiny)); [lra|]. replace (n * (1 / (s + kTiny)) * (s + kTiny)) with n by (field; lra).
  assert (0 <= d * kTiny) by (apply Rmult_le_pos; lra). rewrite Rmult_plus_distr_l, (Rmult_comm d s). lra.
Qed.

Section safeties.
Variables (t : cone_type) (m1 M1 m2 M2 dz dphi : R) (w : wedge_ops) (W : R -> R -> Prop).
Hypothesis Hz : 0 < dz.
Hypothesis H1 : 0 <= m1 < M1.
Hypothesis H2 : 0 <= m2 < M2.
Hypothesis Hf : fits t m1 m2 dphi.
Hypothesis Hw : wedge_safe w W.
Let c := mk_cone m1 M1 m2 M2 dz dphi w.
Let region p := cone_section (- dz) m1 M1 dz m2 M2 p /\ in_phi dphi W p.

Lemma to_outer p : to_conical false c p = (line (- dz) M1 dz M2 (vz p) - rho p) * inv_sec_rmax c.
Proof.
  unfold to_conical. f_equal. unfold c, mk_cone, tan_rmax, line; cbn. rewrite rho_perp.
  replace (if rltb m1 0 then 0 else m1) with m1 by (rcase; lra).
  replace (if rltb m2 0 then 0 else m2) with m2 by (rcase; lra). rcase; try lra. field. lra.
Qed.
Lemma to_inner p : to_conical true c p = (rho p - line (- dz) m1 dz m2 (vz p)) * inv_sec_rmin c.
Proof.
  unfold to_conical. f_equal. unfold c, mk_cone, tan_rmin, line; cbn. rewrite rho_perp.
  replace (if rltb m1 0 then 0 else m1) with m1 by (rcase; lra).
  replace (if rltb m2 0 then 0 else m2) with m2 by (rcase; lra). field. lra.
Qed.
Lemma outer_diff p q : line (- dz) M1 dz M2 (vz p) - rho p - (line (- dz) M1 dz M2 (vz q) - rho q)
  = (tan_rmax c * vz p - rho p) - (tan_rmax c * vz q - rho q).
Proof.
  unfold c, mk_cone, tan_rmax, line; cbn.
  replace (if rltb m1 0 then 0 else m1) with m1 by (rcase; lra).
  replace (if rltb m2 0 then 0 else m2) with m2 by (rcase; lra). rcase; try lra. field. lra.
Qed.
Lemma inner_diff p q : line (- dz) m1 dz m2 (vz p) - rho p - (line (- dz) m1 dz m2 (vz q) - rho q)
  = (tan_rmin c * vz p - rho p) - (tan_rmin c * vz q - rho q).
Proof.
  unfold c, mk_cone, tan_rmin, line; cbn.
  replace (if rltb m1 0 then 0 else m1) with m1 by (rcase; lra).
  replace (if rltb m2 0 then 0 else m2) with m2 by (rcase; lra). field. lra.
Qed.
(** Distances to the two conical surfaces, from either side. *)
Lemma outer_from_out p q : rho q <= line (- dz) M1 dz M2 (vz q) -> - to_conical false c p <= vdist p q.
Proof.
  intros Hq. rewrite to_outer. unfold inv_sec_rmax, sec_rmax.
  replace (- ((line (- dz) M1 dz M2 (vz p) - rho p) * (1 / nonzero (sqrt (1 + tan_rmax c * tan_rmax c)))))
    with ((rho p - line (- dz) M1 dz M2 (vz p)) * (1 / nonzero (sqrt (1 + tan_rmax c * tan_rmax c)))) by ring.
  apply inv_nonzero_bound; [apply vdist_nonneg|]. pose proof (conical_lipschitz (tan_rmax c) q p). pose proof (outer_diff p q).
  rewrite vdist_comm. lra.
Qed.
Lemma outer_from_in p q : line (- dz) M1 dz M2 (vz q) < rho q -> to_conical false c p <= vdist p q.
Proof.
  intros Hq. rewrite to_outer. apply inv_nonzero_bound; [apply vdist_nonneg|].
  pose proof (conical_lipschitz (tan_rmax c) p q). pose proof (outer_diff p q). unfold sec_rmax in *. lra.
Qed.
Lemma inner_from_out p q : line (- dz) m1 dz m2 (vz q) < rho q -> - to_conical true c p <= vdist p q.
Proof.
  intros Hq. rewrite to_inner. unfold inv_sec_rmin, sec_rmin.
  replace (- ((rho p - line (- dz) m1 dz m2 (vz p)) * (1 / nonzero (sqrt (1 + tan_rmin c * tan_rmin c)))))
    with ((line (- dz) m1 dz m2 (vz p) - rho p) * (1 / nonzero (sqrt (1 + tan_rmin c * tan_rmin c)))) by ring.
  apply inv_nonzero_bound; [apply vdist_nonneg|]. pose proof (conical_lipschitz (tan_rmin c) p q). pose proof (inner_diff p q). lra.
Qed.
Lemma inner_from_in p q : rho q <= line (- dz) m1 dz m2 (vz q) -> to_conical true c p <= vdist p q.
Proof.
  intros Hq. rewrite to_inner. apply inv_nonzero_bound; [apply vdist_nonneg|].
  pose proof (conical_lipschitz (tan_rmin c) q p). pose proof (inner_diff p q). rewrite vdist_comm. unfold sec_rmin in *. lra.
Qed.
Lemma z_from_out p q : - dz <= vz q <= dz -> Rabs (vz p) - dz <= vdist p q.
Proof.
  intros Hq. pose proof (vz_le_mag (vsub p q)) as H. cbn in H. fold (vdist p q) in H.
  unfold Rabs in *. destruct (Rcase_abs (vz p)), (Rcase_abs (vz p - vz q)); lra.
Qed.
Lemma z_from_in p q : ~ (- dz <= vz q <= dz) -> dz - Rabs (vz p) <= vdist p q.
Proof.
  intros Hq. pose proof (vz_le_mag (vsub p q)) as H. cbn in H. fold (vdist p q) in H.
  assert (vz q < - dz \/ dz < vz q) by lra.
  unfold Rabs in *. destruct (Rcase_abs (vz p)), (Rcase_abs (vz p - vz q)); lra.
Qed.
Lemma plane_dist_le p q : plane_dist (vx p) (vy p) (vx q) (vy q) <= vdist p q.
Proof. unfold plane_dist, vdist, vmag. apply sqrt_le_1_alt. unfold vdot, vsub; cbn. pose proof (Rle_0_sqr (vz p - vz q)) as H. unfold Rsqr in H. lra. Qed.
Lemma flush_le s d : 0 <= d -> s <= d -> flush s <= d.
Proof. intros. unfold flush. rcase; lra. Qed.

Lemma cone_safety_in_le p q : region q -> cone_safety_in t c p <= vdist p q.
Proof.
  intros [(Hqz & Hqo & Hqi) Hqw]. pose proof (vdist_nonneg p q) as Hd. unfold cone_safety_in.
  match goal with |- (if ?b then _ else _) <= _ => destruct b end; [lra|].
  apply flush_le; [exact Hd|].
  assert (Hs : Rmax (Rabs (vz p) - k_dz c)
     (if needs_rmin t c then Rmax (- to_conical false c p) (- to_conical true c p) else - to_conical false c p) <= vdist p q).
  { apply Rmax_lub; [apply z_from_out; exact Hqz|].
    pose proof (outer_from_out p q Hqo). destruct (needs_rmin t c) eqn:E; [|auto].
    apply Rmax_lub; [auto|]. apply inner_from_out, Hqi. apply (cone_needs_rmin t m1 M1 m2 M2 dz dphi w); auto; lra. }
  destruct (needs_phi t c) eqn:E; [|exact Hs]. apply Rmax_lub; [|exact Hs].
  apply Rle_trans with (2 := plane_dist_le p q). apply (proj1 Hw). apply Hqw.
  apply (cone_needs_phi t m1 M1 m2 M2 dz dphi w); auto.
Qed.
Lemma cone_safety_out_le p q : region p -> ~ region q -> cone_safety_out t c p <= vdist p q.
Proof.
  intros [(Hpz & Hpo & Hpi) Hpw] Hq. pose proof (vdist_nonneg p q) as Hd. unfold cone_safety_out.
  match goal with |- (if ?b then _ else _) <= _ => destruct b end; [lra|].
  apply flush_le; [exact Hd|].
  pose proof (cone_needs_rmin t m1 M1 m2 M2 dz dphi w (proj1 H1) (proj1 H2) Hf) as Hr. fold c in Hr.
  pose proof (cone_needs_phi t m1 M1 m2 M2 dz dphi w Hf) as Hp. fold c in Hp.
  set (lateral := if needs_rmin t c then Rmin (to_conical false c p) (to_conical true c p) else to_conical false c p).
  set (s := Rmin (k_dz c - Rabs (vz p)) lateral).
  assert (Hlo : lateral <= to_conical false c p).
  { unfold lateral. destruct (needs_rmin t c); [apply Rmin_l|lra]. }
  assert (Hli : needs_rmin t c = true -> lateral <= to_conical true c p).
  { intros E. unfold lateral. rewrite E. apply Rmin_r. }
  assert (Hs1 : s <= dz - Rabs (vz p)) by apply Rmin_l. assert (Hs2 : s <= lateral) by apply Rmin_r.
  set (r := if needs_phi t c then Rmin (w_safety_out (k_wedge c) (vx p) (vy p)) s else s).
  assert (Hr1 : r <= s). { unfold r. destruct (needs_phi t c); [apply Rmin_r|lra]. }
  destruct (Rle_lt_dec (- dz) (vz q)) as [Ha|Ha]; [|pose proof (z_from_in p q ltac:(lra)); lra].
  destruct (Rle_lt_dec (vz q) dz) as [Hb|Hb]; [|pose proof (z_from_in p q ltac:(lra)); lra].
  destruct (Rle_lt_dec (rho q) (line (- dz) M1 dz M2 (vz q))) as [Ho|Ho]; [|pose proof (outer_from_in p q Ho); lra].
  destruct (needs_rmin t c) eqn:E.
  - destruct (Rle_lt_dec (rho q) (line (- dz) m1 dz m2 (vz q))) as [Hi|Hi].
    { pose proof (inner_from_in p q Hi). specialize (Hli eq_refl). lra. }
    destruct (needs_phi t c) eqn:E'.
    + apply Rle_trans with (2 := plane_dist_le p q). apply Rle_trans with (w_safety_out w (vx p) (vy p)); [unfold r; apply Rmin_l|].
      apply (proj2 Hw).
      * apply Hpw. tauto.
      * intros Hx. apply Hq. split; [split; [lra|split; [exact Ho|auto]]|]. intros _. exact Hx.
    + exfalso. apply Hq. split; [split; [lra|split; [exact Ho|auto]]|]. intros Hx. apply Hp in Hx. discriminate.
  - destruct (needs_phi t c) eqn:E'.
    + apply Rle_trans with (2 := plane_dist_le p q). apply Rle_trans with (w_safety_out w (vx p) (vy p)); [unfold r; apply Rmin_l|].
      apply (proj2 Hw).
      * apply Hpw. tauto.
      * intros Hx. apply Hq. split; [split; [lra|split; [exact Ho|intros Hy; apply Hr in Hy; discriminate]]|]. intros _. exact Hx.
    + exfalso. apply Hq. split; [split; [lra|split; [exact Ho|intros Hy; apply Hr in Hy; discriminate]]|]. intros Hx. apply Hp in Hx. discriminate.
Qed.
End safeties.

Section tolerant.
Variables (t : cone_type) (m1 M1 m2 M2 dz dphi : R) (w : wedge_ops) (W : R -> R -> Prop).
Hypothesis Hz : 0 < dz.
Hypothesis H1 : 0 <= m1 < M1.
Hypothesis H2 : 0 <= m2 < M2.
Hypothesis Hf : fits t m1 m2 dphi.
Hypothesis Hw : wedge_tolerant w W.
Let c := mk_cone m1 M1 m2 M2 dz dphi w.
Let region p := cone_section (- dz) m1 M1 dz m2 M2 p /\ in_phi dphi W p.

Lemma outer_tol_tilted : outer_tol c = tilted (- dz) M1 dz M2.
Proof.
  unfold outer_tol, tilted, sec_rmax, kConeTolerance. f_equal. f_equal.
  replace (tan_rmax c) with ((M2 - M1) / (dz - - dz)); [reflexivity|].
  unfold c, mk_cone, tan_rmax; cbn.
  replace (if rltb m1 0 then 0 else m1) with m1 by (rcase; lra).
  replace (if rltb m2 0 then 0 else m2) with m2 by (rcase; lra). rcase; try lra. field. lra.
Qed.
Lemma inner_tol_tilted : inner_tol c = tilted (- dz) m1 dz m2.
Proof.
  unfold inner_tol, tilted, sec_rmin, kConeTolerance. f_equal. f_equal.
  replace (tan_rmin c) with ((m2 - m1) / (dz - - dz)); [reflexivity|].
  unfold c, mk_cone, tan_rmin; cbn.
  replace (if rltb m1 0 then 0 else m1) with m1 by (rcase; lra).
  replace (if rltb m2 0 then 0 else m2) with m2 by (rcase; lra). field. lra.
Qed.
Lemma tilted_pos z1 r1 z2 r2 : 0 < tilted z1 r1 z2 r2.
Proof.
  unfold tilted. apply Rmult_lt_0_compat; [lra|]. apply sqrt_lt_R0. pose proof (Rle_0_sqr ((r2 - r1) / (z2 - z1))) as H.
  unfold Rsqr in H. lra.
Qed.
Lemma minus_tol_sq_le x h : h <= x -> 0 < h -> minus_tol_sq true x h <= x * x.
Proof. intros Hx Hh. unfold minus_tol_sq, Rabs. destruct (Rcase_abs (x * (x - 2 * h))); nra. Qed.

Let o p := line (- dz) M1 dz M2 (vz p).
Let i p := line (- dz) m1 dz m2 (vz p).
(** The tolerant kernel, with its lines and tolerances named. *)
Lemma cone_kernel_true p :
  cone_kernel t true c p =
  let out := rgtb (Rabs (vz p)) (dz + kConeTolerance) in
  let inn := rltb (Rabs (vz p)) (dz - kConeTolerance) in
  if out then (inn, out) else
  let out := rgtb (perp2 p) (plus_tol_sq true (o p) (tilted (- dz) M1 dz M2)) in
  let inn := inn && rltb (perp2 p) (minus_tol_sq true (o p) (tilted (- dz) M1 dz M2)) in
  if out then (inn, out) else
  let nr := needs_rmin t c in
  let out := nr && rleb (perp2 p) (minus_tol_sq true (i p) (tilted (- dz) m1 dz m2)) in
  let inn := inn && (negb nr || rgtb (perp2 p) (plus_tol_sq true (i p) (tilted (- dz) m1 dz m2))) in
  if out then (inn, out) else
  if needs_phi t c then (inn && fst (w_kernel w true (vx p) (vy p)), snd (w_kernel w true (vx p) (vy p))) else (inn, out).
Proof.
  unfold cone_kernel. rewrite outer_tol_tilted, inner_tol_tilted.
  pose proof (outer_line m1 M1 m2 M2 dz dphi w (vz p) Hz H1 H2) as Ho. cbn zeta in Ho. fold c in Ho. rewrite Ho.
  pose proof (inner_line m1 M1 m2 M2 dz dphi w (vz p) Hz H1 H2) as Hi. cbn zeta in Hi. fold c in Hi. rewrite Hi.
  fold (o p) (i p). cbn [plus_tol minus_tol andb]. replace (k_dz c) with dz by reflexivity. replace (k_wedge c) with w by reflexivity.
  destruct (rgtb (Rabs (vz p)) (dz + kConeTolerance)); [reflexivity|]. cbn [orb].
  destruct (rgtb (perp2 p) (plus_tol_sq true (o p) (tilted (- dz) M1 dz M2))); [reflexivity|]. cbn [orb].
  destruct (needs_rmin t c && _); [reflexivity|]. reflexivity.
Qed.
Lemma cone_inside_in p : tilted (- dz) M1 dz M2 <= o p -> cone_inside t c p = kInside -> region p.
Proof.
  intros Ht. unfold cone_inside. rewrite cone_kernel_true.
  pose proof (cone_needs_rmin t m1 M1 m2 M2 dz dphi w (proj1 H1) (proj1 H2) Hf) as Hr. fold c in Hr.
  pose proof (cone_needs_phi t m1 M1 m2 M2 dz dphi w Hf) as Hp. fold c in Hp.
  pose proof kConeTolerance_pos as Hk.
  pose proof (tilted_pos (- dz) M1 dz M2) as HtM. pose proof (tilted_pos (- dz) m1 dz m2) as Htm.
  pose proof (minus_tol_sq_le (o p) _ Ht HtM) as Hms. set (hM := tilted (- dz) M1 dz M2) in *. set (hm := tilted (- dz) m1 dz m2) in *.
  pose proof (rho_sqr p) as Hrs; pose proof (rho_nonneg p) as Hrn.
  destruct (rgtb_spec (Rabs (vz p)) (dz + kConeTolerance)) as [Ha|Ha]; cbn zeta.
  { destruct (rltb_spec (Rabs (vz p)) (dz - kConeTolerance)); [lra|discriminate]. }
  destruct (rltb_spec (Rabs (vz p)) (dz - kConeTolerance)) as [Hb|Hb]; cbn [andb].
  2: { destruct (rgtb _ _); [discriminate|]. destruct (needs_rmin t c && _); [discriminate|].
       destruct (needs_phi t c); [destruct (snd _)|]; discriminate. }
  assert (Hzr : - dz <= vz p <= dz) by (unfold Rabs in Hb; destruct (Rcase_abs (vz p)); lra).
  assert (HiN : 0 <= i p) by (apply line_nonneg; lra).
  destruct (rltb_spec (perp2 p) (minus_tol_sq true (o p) hM)) as [Hc|Hc]; cbn [andb].
  2: { destruct (rgtb _ _); [discriminate|]. destruct (needs_rmin t c && _); [discriminate|].
       destruct (needs_phi t c); [destruct (snd _)|]; discriminate. }
  assert (Hro : rho p <= o p) by (apply sqr_le_le; lra).
  destruct (rgtb_spec (perp2 p) (plus_tol_sq true (o p) hM)) as [Hd|Hd]. { unfold plus_tol_sq in Hd. exfalso. nra. }
  destruct (needs_rmin t c) eqn:E; cbn [andb negb orb].
  - destruct (rgtb_spec (perp2 p) (plus_tol_sq true (i p) hm)) as [He|He].
    2: { destruct (rleb _ _); [discriminate|]. destruct (needs_phi t c); [destruct (snd _)|]; discriminate. }
    assert (Hri : i p < rho p). { unfold plus_tol_sq in He. apply Rnot_le_lt. intros Hx. nra. }
    destruct (rleb_spec (perp2 p) (minus_tol_sq true (i p) hm)) as [Hg|Hg].
    { exfalso. unfold plus_tol_sq, minus_tol_sq, Rabs in *. destruct (Rcase_abs (i p * (i p - 2 * hm))); nra. }
    destruct (needs_phi t c) eqn:E'.
    + destruct (fst (w_kernel w true (vx p) (vy p))) eqn:Ew; cbn [andb]; [|destruct (snd _); discriminate].
      intros _. split; [split; [lra|split; [exact Hro|intros _; exact Hri]]|]. intros _. apply (proj1 Hw), Ew.
    + intros _. split; [split; [lra|split; [exact Hro|intros _; exact Hri]]|]. intros Hx. apply Hp in Hx. discriminate.
  - destruct (needs_phi t c) eqn:E'.
    + destruct (fst (w_kernel w true (vx p) (vy p))) eqn:Ew; cbn [andb]; [|destruct (snd _); discriminate].
      intros _. split; [split; [lra|split; [exact Hro|intros Hx; apply Hr in Hx; discriminate]]|]. intros _. apply (proj1 Hw), Ew.
    + intros _. split; [split; [lra|split; [exact Hro|intros Hx; apply Hr in Hx; discriminate]]|]. intros Hx. apply Hp in Hx. discriminate.
Qed.
Lemma cone_kernel_out p : (0 < m1 \/ 0 < m2 -> tilted (- dz) m1 dz m2 <= i p) -> snd (cone_kernel t true c p) = true -> ~ region p.
Proof.
  intros Ht. rewrite cone_kernel_true.
  pose proof (cone_needs_rmin t m1 M1 m2 M2 dz dphi w (proj1 H1) (proj1 H2) Hf) as Hr. fold c in Hr.
  pose proof (cone_needs_phi t m1 M1 m2 M2 dz dphi w Hf) as Hp. fold c in Hp.
  pose proof kConeTolerance_pos as Hk.
  pose proof (tilted_pos (- dz) M1 dz M2) as HtM. pose proof (tilted_pos (- dz) m1 dz m2) as Htm.
  intros Ho [(Hzr & Hro & Hri) Hph]. fold (o p) in Hro. fold (i p) in Hri.
  assert (HoN : 0 <= o p) by (apply line_nonneg; lra). assert (HiN : 0 <= i p) by (apply line_nonneg; lra).
  pose proof (rho_sqr p) as Hrs; pose proof (rho_nonneg p) as Hrn.
  destruct (rgtb_spec (Rabs (vz p)) (dz + kConeTolerance)) as [Ha|Ha]; cbn zeta in Ho.
  { unfold Rabs in Ha. destruct (Rcase_abs (vz p)); lra. }
  destruct (rgtb_spec (perp2 p) (plus_tol_sq true (o p) (tilted (- dz) M1 dz M2))) as [Hd|Hd]. { unfold plus_tol_sq in Hd. nra. }
  match type of Ho with context [if (needs_rmin t c && ?b) then _ else _] => destruct (needs_rmin t c && b) eqn:E end.
  { apply andb_true_iff in E as [E E']. apply Hr in E. apply rleb_true in E'. specialize (Ht E). specialize (Hri E).
    pose proof (minus_tol_sq_le (i p) _ Ht Htm). nra. }
  destruct (needs_phi t c) eqn:E'; [|discriminate]. cbn [snd] in Ho. apply (proj2 Hw) in Ho. apply Ho, Hph. tauto.
Qed.
Lemma cone_inside_out p : (0 < m1 \/ 0 < m2 -> tilted (- dz) m1 dz m2 <= i p) -> cone_inside t c p = kOutside -> ~ region p.
Proof.
  intros Ht H. apply cone_kernel_out; [exact Ht|]. unfold cone_inside in H. destruct (cone_kernel t true c p) as [[] []]; try discriminate; reflexivity.
Qed.
End tolerant.
