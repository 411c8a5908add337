From Coq Require Import Reals Lra Lia Bool Psatz.
From stdpp Require Import base list option numbers tactics.
From Verif Require Import Real3 AABBModel AABBProofs BoxModel BoxProofs PlanesModel TetModel ConeModel ConeSpec ConeProofs EllTubeModel EllTubeSpec EllTubeProofs EllTubeProofs2.
Import stdpp.list.
Local Open Scope R_scope.

(** The pickers and the perimeter *)
Lemma in_loop n a b u : 0 < a -> 0 < b -> let q := in_ellipse_loop n a b (1 / (a * a)) (1 / (b * b)) u in ell a b (V3 (fst q) (snd q) 0) <= 1.
Proof.
  intros Ha Hb. cbv zeta. revert u. induction n as [|n IH]; intros u; cbn [in_ellipse_loop].
  - unfold ell. cbn [vx vy fst snd]. unfold Rdiv. rewrite !Rmult_0_l, Rplus_0_l, sqrt_0. lra.
  - destruct (rleb_spec (a * (2 * u 0%nat - 1) * (a * (2 * u 0%nat - 1)) * (1 / (a * a)) + b * (2 * u 1%nat - 1) * (b * (2 * u 1%nat - 1)) * (1 / (b * b))) 1) as [L|L]; [|apply IH].
    unfold ell. cbn [vx vy fst snd]. apply Rle_trans with (R_sqrt.sqrt 1); [|rewrite sqrt_1; lra]. apply sqrt_le_1_alt. eapply Rle_trans; [|exact L]. right. field. lra.
Qed.
Lemma random_in a b u : 0 < a -> 0 < b -> let q := random_in_ellipse a b u in ell a b (V3 (fst q) (snd q) 0) <= 1.
Proof.
  intros Ha Hb. unfold random_in_ellipse. destruct (reqb_spec (a * a) 0) as [Q|_]; [nra|]. destruct (reqb_spec (b * b) 0) as [Q|_]; [nra|]. by apply in_loop.
Qed.
Lemma on_loop n A B mu x0 y0 u : let q := on_ellipse_loop (S n) A B mu x0 y0 u in ∃ phi, q = (cos phi, sin phi).
Proof.
  cbv zeta. revert x0 y0 u. induction n as [|n IH]; intros x0 y0 u.
  - cbn [on_ellipse_loop]. destruct (rleb _ _); by eexists.
  - remember (S n) as k eqn:K. cbn [on_ellipse_loop]. destruct (rleb _ _); [by eexists|]. apply IH.
Qed.
Lemma random_on a b x0 y0 u : 0 < a -> 0 < b -> let q := random_on_ellipse a b x0 y0 u in ell a b (V3 (fst q) (snd q) 0) = 1.
Proof.
  intros Ha Hb. unfold random_on_ellipse. destruct (on_loop 999 (Rabs a) (Rabs b) (Rmax (Rabs a) (Rabs b)) x0 y0 u) as [phi E]. cbv zeta in E. change (S 999) with 1000%nat in E. rewrite E. cbn [fst snd]. rewrite (Rabs_pos_eq a), (Rabs_pos_eq b) by lra. unfold ell. cbn [vx vy].
  replace (a * cos phi / a * (a * cos phi / a) + b * sin phi / b * (b * sin phi / b)) with (Rsqr (sin phi) + Rsqr (cos phi)) by (unfold Rsqr; field; lra). rewrite sin2_cos2. apply sqrt_1.
Qed.
Lemma agm_step x y : 0 < y <= x -> 0 < y /\ y <= R_sqrt.sqrt (x * y) <= (x + y) * (1 / 2) /\ (x + y) * (1 / 2) - R_sqrt.sqrt (x * y) <= (x - y) * (1 / 2).
Proof.
  intros [Hy Hx]. assert (S : R_sqrt.sqrt (x * y) * R_sqrt.sqrt (x * y) = x * y) by (apply sqrt_sqrt; nra). pose proof (sqrt_pos (x * y)) as S0. set (s := R_sqrt.sqrt (x * y)) in *. clearbody s. split; [done|].
  assert (y <= s) by nra. split; [split; [done|]|lra]. assert (0 <= (x - y) * (x - y)) by nra. nra.
Qed.
Lemma loop_stops n : ∀ x y s M, 0 < y <= x -> x - y <= 2 ^ n * (/ 134217728 * y) -> ∃ r, ∀ fuel, (n <= fuel)%nat -> ellint_loop fuel x y s M = Some r.
Proof.
  induction n as [|n IH]; intros x y s M Hxy L.
  - eexists. intros fuel _. destruct fuel; cbn [ellint_loop]; (destruct (rgtb_spec (x - y) (/ 134217728 * y)); [rewrite pow_O in L; lra|done]).
  - destruct (rgtb_spec (x - y) (/ 134217728 * y)) as [G|G].
    + destruct (agm_step x y Hxy) as (Y0 & [L1 L2] & L3). set (x' := (x + y) * (1 / 2)) in *. set (y' := R_sqrt.sqrt (x * y)) in *.
      destruct (IH x' y' (s + (M + M) * (x' - y') * (x' - y')) (M + M)) as [r Hr]; [lra| |].
      * rewrite <- tech_pow_Rmult in L. assert (P : 0 < 2 ^ n) by (apply pow_lt; lra). set (k := 2 ^ n) in *. clearbody k x' y'. assert (k * (/ 134217728 * y) <= k * (/ 134217728 * y')) by (apply Rmult_le_compat_l; lra). lra.
      * exists r. intros [|fuel] Hf; [lia|]. cbn [ellint_loop]. destruct (rgtb_spec (x - y) (/ 134217728 * y)); [|lra]. apply Hr. lia.
    + eexists. intros fuel _. destruct fuel; cbn [ellint_loop]; (destruct (rgtb_spec (x - y) (/ 134217728 * y)); [tauto|done]).
Qed.
Lemma ratio_root b_a : 0 < b_a <= 1 -> R_sqrt.sqrt ((1 - R_sqrt.sqrt ((1 - b_a) * (1 + b_a))) * (1 + R_sqrt.sqrt ((1 - b_a) * (1 + b_a)))) = b_a.
Proof.
  intros H. assert (S : R_sqrt.sqrt ((1 - b_a) * (1 + b_a)) * R_sqrt.sqrt ((1 - b_a) * (1 + b_a)) = (1 - b_a) * (1 + b_a)) by (apply sqrt_sqrt; nra). set (s := R_sqrt.sqrt ((1 - b_a) * (1 + b_a))) in *.
  replace ((1 - s) * (1 + s)) with (b_a * b_a) by lra. apply sqrt_square. lra.
Qed.
Lemma perimeter_stops A B : A <> 0 -> B <> 0 -> ∃ P n, ∀ fuel, (n <= fuel)%nat -> ellipse_perimeter fuel A B = Some P.
Proof.
  intros HA HB. apply Rabs_pos_lt in HA. apply Rabs_pos_lt in HB. unfold ellipse_perimeter. set (a := Rmax (Rabs A) (Rabs B)). set (b := Rmin (Rabs A) (Rabs B)). assert (Hb : 0 < b <= a) by (unfold a, b, Rmax, Rmin; destruct (Rle_dec (Rabs A) (Rabs B)); lra). clearbody a b.
  assert (Hr : 0 < b / a <= 1). { split; [apply Rdiv_lt_0_compat; lra|]. apply Rmult_le_reg_r with a; [lra|]. replace (b / a * a) with b by (field; lra). lra. } set (r := b / a) in *. clearbody r.
  unfold comp_ellint_2. rewrite ratio_root by done. destruct (reqb_spec r 1) as [E|E]; [exists (4 * a * (PI / 2)), 0%nat; done|]. destruct (reqb_spec r 0) as [E0|_]; [lra|].
  destruct (archimed_cor1 (r * / 134217728)) as (N & HN & N0); [lra|]. destruct (loop_stops N 1 r 0 1 ltac:(lra)) as [[[x y] s] Hl].
  - assert (IN : INR N < 2 ^ N). { clear. induction N as [|N IH]; [cbn; lra|]. rewrite S_INR, <- tech_pow_Rmult. assert (1 <= 2 ^ N) by (apply pow_R1_Rle; lra). lra. }
    assert (I0 : 0 < INR N) by (apply lt_0_INR; lia). assert (/ INR N * INR N = 1) by (field; lra). assert (1 < INR N * (r * / 134217728)). { rewrite <- H. rewrite Rmult_comm. apply Rmult_lt_compat_l; lra. } assert (INR N * (r * / 134217728) <= 2 ^ N * (r * / 134217728)) by (apply Rmult_le_compat_r; lra). lra.
  - eexists _, N. intros fuel Hf. rewrite (Hl fuel Hf). done.
Qed.
Lemma perimeter_circle fuel r : 0 < r -> ellipse_perimeter fuel r r = Some (2 * PI * r).
Proof.
  intros H. unfold ellipse_perimeter. rewrite Rabs_pos_eq by lra. rewrite Rmax_left, Rmin_left by lra. replace (r / r) with 1 by (field; lra). unfold comp_ellint_2. rewrite ratio_root by lra. destruct (reqb_spec 1 1); [|done]. f_equal. lra.
Qed.

Section Shape.
Variables X Y Z : R.
Hypothesis HX : 2 * kTolerance <= X.
Hypothesis HY : 2 * kTolerance <= Y.
Variable perimeter : R -> R -> R.
Notation t := (mk_elltube perimeter X Y Z).
Let m := Rmin X Y.
Notation e := (ell X Y).
Notation grad := (ell_gradient X Y).
Notation h := kHalfTolerance.
Lemma XY_pos : 0 < X /\ 0 < Y.
Proof using HX HY. pose proof kTolerance_pos. lra. Qed.
Notation near_side := (ell_near_side X Y).
Notation near_lid := (ell_near_lid Z).
Lemma near_side_spec p : reflect (near_side p) (rleb (Rabs (et_distR t p)) h).
Proof using HX HY.
  destruct (distR_e X Y Z HX HY perimeter p h eq_refl) as (E1 & _ & E2). fold m in E1, E2. unfold ell_near_side. fold m. destruct (rleb_spec (Rabs (et_distR t p)) h) as [G|G]; constructor; rewrite abs_le in G; rewrite <- E1, <- E2; tauto.
Qed.
Lemma near_lid_spec p : reflect (near_lid p) (rleb (Rabs (et_distZ t p)) h).
Proof using HX HY.
  rewrite distZ_e by done. unfold ell_near_lid. destruct (rleb_spec (Rabs (Rabs (vz p) - Z)) h) as [G|G]; constructor; rewrite abs_le in G; lra.
Qed.
Lemma grad_nonzero p : near_side p -> 0 < vdot (grad p) (grad p).
Proof using HX HY.
  intros [N _]. fold m in N. pose proof (m_pos X Y HX HY) as Hm. fold m in Hm. pose proof kTolerance_pos as HT. destruct XY_pos as [PX PY]. assert (E0 : 0 < e p). { pose proof (e_nonneg X Y p). unfold h in N. destruct (Req_dec (e p) 0) as [Q|Q]; [rewrite Q in N; lra|lra]. }
  pose proof (e_sqr X Y p) as E. assert (E1 : 0 < e p * e p) by nra. rewrite E in E1. unfold vdot, ell_gradient. cbn [vx vy vz]. destruct (Req_dec (vx p) 0) as [Qx|Qx].
  - destruct (Req_dec (vy p) 0) as [Qy|Qy]; [rewrite Qx, Qy in E1; unfold Rdiv in E1; lra|]. assert (G : 2 * vy p / (Y * Y) <> 0). { apply Rmult_integral_contrapositive. split; [lra|]. apply Rinv_neq_0_compat. nra. } clear - G. nra.
  - assert (G : 2 * vx p / (X * X) <> 0). { apply Rmult_integral_contrapositive. split; [lra|]. apply Rinv_neq_0_compat. nra. } clear - G. nra.
Qed.
Lemma side_normal_eq kmin p : 0 <= kmin -> near_side p -> ∃ k, 0 < k /\ et_side_normal kmin t p = vscale k (grad p) /\ 0 < vdot (vscale k (grad p)) (vscale k (grad p)) <= 1 /\ (kmin = 0 -> vdot (vscale k (grad p)) (vscale k (grad p)) = 1).
Proof using HX HY.
  intros Hk N. pose proof (grad_nonzero p N) as G. destruct XY_pos as [PX PY]. unfold et_side_normal, vunit. replace (et_ddx t) with (X * X) by (rewrite te by done; done). replace (et_ddy t) with (Y * Y) by (rewrite te by done; done).
  set (c := X * X * (Y * Y) * (1 / 2)). assert (C0 : 0 < c) by (unfold c; repeat apply Rmult_lt_0_compat; lra). assert (V : V3 (vx p * (Y * Y)) (vy p * (X * X)) 0 = vscale c (grad p)) by (unfold c, ell_gradient; apply v3_eq; cbn; field; lra). rewrite V.
  assert (Q : vdot (vscale c (grad p)) (vscale c (grad p)) = c * c * vdot (grad p) (grad p)) by (unfold vdot, vscale; cbn; ring). rewrite Q. set (g := vdot (grad p) (grad p)) in *. assert (CG : 0 < c * c * g) by (repeat apply Rmult_lt_0_compat; lra). set (w := c * c * g + kmin). assert (W0 : 0 < w) by (unfold w; lra). pose proof (sqrt_lt_R0 _ W0) as S0. assert (S : R_sqrt.sqrt w * R_sqrt.sqrt w = w) by (apply sqrt_sqrt; lra). set (s := R_sqrt.sqrt w) in *.
  exists (/ s * c). assert (K0 : 0 < / s * c) by (apply Rmult_lt_0_compat; [by apply Rinv_0_lt_compat|done]). split; [done|]. split; [apply v3_eq; cbn; ring|].
  assert (Q2 : vdot (vscale (/ s * c) (grad p)) (vscale (/ s * c) (grad p)) = c * c * g / (s * s)) by (unfold g, vdot, vscale; cbn; field; lra). rewrite Q2, S. split; [split; [by apply Rdiv_lt_0_compat|]|].
  - apply Rmult_le_reg_r with w; [done|]. replace (c * c * g / w * w) with (c * c * g) by (field; lra). unfold w. lra.
  - intros K1. unfold w. rewrite K1, Rplus_0_r. field. lra.
Qed.
Lemma sign_sqr z : rsign z * rsign z = 1.
Proof using. clear. unfold rsign. destruct (rltb z 0); lra. Qed.
Lemma normal_side kmin p : 0 <= kmin -> near_side p -> ¬ near_lid p -> ∃ k, 0 < k /\ et_normal kmin t p = (vscale k (grad p), true) /\ (kmin = 0 -> vdot (vscale k (grad p)) (vscale k (grad p)) = 1).
Proof using HX HY.
  intros Hk N L. destruct (side_normal_eq kmin p Hk N) as (k & K0 & E & [G1 G2] & G3). exists k. split; [done|]. split; [|done]. unfold et_normal. destruct (near_side_spec p); [|done]. destruct (near_lid_spec p); [done|]. rewrite E.
  destruct (rgtb_spec (vdot (vscale k (grad p)) (vscale k (grad p))) 1); [lra|]. destruct (rgtb_spec (vdot (vscale k (grad p)) (vscale k (grad p))) 0); [done|lra].
Qed.
Lemma normal_lid kmin p : ¬ near_side p -> near_lid p -> et_normal kmin t p = (V3 0 0 (rsign (vz p)), true).
Proof using HX HY.
  intros N L. unfold et_normal. destruct (near_side_spec p); [done|]. destruct (near_lid_spec p); [|done]. cbn [vzero vx vy]. assert (Q : vdot (V3 0 0 (rsign (vz p))) (V3 0 0 (rsign (vz p))) = 1). { unfold vdot. cbn [vx vy vz]. rewrite sign_sqr. ring. }
  rewrite Q. destruct (rgtb_spec 1 1); [lra|]. rewrite Q. destruct (rgtb_spec 1 0); [done|lra].
Qed.
Lemma normal_edge kmin p : 0 <= kmin -> near_side p -> near_lid p -> ∃ k c, 0 < k /\ 0 < c /\ et_normal kmin t p = (vscale c (vadd (vscale k (grad p)) (V3 0 0 (rsign (vz p)))), true) /\
  (kmin = 0 -> vdot (vscale k (grad p)) (vscale k (grad p)) = 1 /\ vdot (fst (et_normal kmin t p)) (fst (et_normal kmin t p)) = 1).
Proof using HX HY.
  intros Hk N L. destruct (side_normal_eq kmin p Hk N) as (k & K0 & E & [G1 G2] & G3). set (v := vadd (vscale k (grad p)) (V3 0 0 (rsign (vz p)))).
  assert (V : vdot v v = vdot (vscale k (grad p)) (vscale k (grad p)) + 1). { unfold v, vdot, vadd, vscale, ell_gradient. cbn [vx vy vz]. pose proof (sign_sqr (vz p)) as Q. rewrite Rmult_0_r, !Rplus_0_l, Q. ring. }
  assert (W0 : 0 < vdot v v + kmin) by lra. pose proof (sqrt_lt_R0 _ W0) as S0. assert (S : R_sqrt.sqrt (vdot v v + kmin) * R_sqrt.sqrt (vdot v v + kmin) = vdot v v + kmin) by (apply sqrt_sqrt; lra).
  assert (EN : et_normal kmin t p = (vscale (/ R_sqrt.sqrt (vdot v v + kmin)) v, true)).
  { unfold et_normal. destruct (near_side_spec p); [|done]. destruct (near_lid_spec p); [|done]. rewrite E. assert (EV : V3 (vx (vscale k (grad p))) (vy (vscale k (grad p))) (rsign (vz p)) = v) by (unfold v, ell_gradient; apply v3_eq; cbn; ring). rewrite EV. destruct (rgtb_spec (vdot v v) 1); [|lra]. unfold vunit. set (s := R_sqrt.sqrt (vdot v v + kmin)) in *.
    assert (Q : vdot (vscale (/ s) v) (vscale (/ s) v) = vdot v v * (/ s * / s)) by (unfold vdot, vscale; cbn [vx vy vz]; ring). rewrite Q. destruct (rgtb_spec (vdot v v * (/ s * / s)) 0) as [?|B]; [done|]. exfalso. apply B. pose proof (Rinv_0_lt_compat _ S0). apply Rmult_lt_0_compat; [lra|]. by apply Rmult_lt_0_compat. }
  exists k, (/ R_sqrt.sqrt (vdot v v + kmin)). split; [done|]. split; [by apply Rinv_0_lt_compat|]. split; [exact EN|]. intros K1. split; [by apply G3|]. rewrite EN. cbn [fst]. set (s := R_sqrt.sqrt (vdot v v + kmin)) in *. rewrite K1, Rplus_0_r in S. assert (Q : vdot (vscale (/ s) v) (vscale (/ s) v) = vdot v v * (/ s * / s)) by (unfold vdot, vscale; cbn [vx vy vz]; ring). rewrite Q, <- S. field. lra.
Qed.
Lemma normal_off kmin p : ¬ near_side p -> ¬ near_lid p -> snd (et_normal kmin t p) = false.
Proof using HX HY.
  intros N L. unfold et_normal. destruct (near_side_spec p); [done|]. destruct (near_lid_spec p); [done|]. assert (Q : vdot vzero vzero = 0) by (unfold vdot, vzero; cbn [vx vy vz]; ring). rewrite Q. destruct (rgtb_spec 0 1); [lra|]. rewrite Q. destruct (rgtb_spec 0 0); [lra|]. done.
Qed.
End Shape.
