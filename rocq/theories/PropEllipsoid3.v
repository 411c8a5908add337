(** C87: ellipsoids with cuts: normals, measures, samples, mesh, setters and constructor. *)
From Coq Require Import Reals Lra Lia Bool ZArith Psatz.
From stdpp Require Import base list option numbers tactics.
From Verif Require Import Real3 AABBModel AABBProofs BoxModel BoxProofs PlanesModel TetModel ConeModel ConeSpec ConeProofs EllTubeModel EllTubeSpec EllTubeProofs EllTubeProofs2 EllTubeProofs3 EllTubeProofs4 EllipsoidModel EllipsoidSpec EllipsoidProofs EllipsoidProofs4.
Import stdpp.list.
Local Open Scope R_scope.

Local Notation sizes A B C zb zt := (2 * kTolerance <= A ∧ 2 * kTolerance <= B ∧ 2 * kTolerance <= C ∧ - C <= zb < zt ∧ zt <= C).
Lemma tol_less : 0 < kTolerance <= / 1000.
Proof. unfold kTolerance. lra. Qed.
(** NormalKernel: along the gradient near the side only, along z and outwards near a cut only, a sum of such vectors near both; valid only near one of them. *)
Theorem C87_normal A B C zb zt kmin p : sizes A B C zb zt → 0 <= kmin → let n := es_normal kmin (mk_ellipsoid A B C zb zt) p in let g := es_gradient A B C p in let cut := V3 0 0 (rsign (vz p - (zb + zt) / 2)) in
  (es_near_side A B C p → ¬ es_near_cut A B C zb zt p → ∃ k, 0 < k ∧ n = (vscale k g, true) ∧ (kmin = 0 → vdot (vscale k g) (vscale k g) = 1)) ∧
  (¬ es_near_side A B C p → es_near_cut A B C zb zt p → n = (cut, true)) ∧
  (es_near_side A B C p → es_near_cut A B C zb zt p → ∃ k, 0 < k ∧ (kmin = 0 → vdot (vscale k g) (vscale k g) = 1) ∧ let v := vadd (vscale k g) cut in
     (v = vzero → snd n = false) ∧ (v ≠ vzero → ∃ k', 0 < k' ∧ n = (vscale k' v, true) ∧ (kmin = 0 → 1 < vdot v v → vdot (vscale k' v) (vscale k' v) = 1))) ∧
  (¬ es_near_side A B C p → ¬ es_near_cut A B C zb zt p → snd n = false).
Proof.
  intros (HA & HB & HC & Hz) Hk n g cut. unfold n, g, cut. split; [|split; [|split]]; intros N L.
  - by apply normal_side.
  - by apply normal_cut.
  - by apply normal_edge.
  - by apply normal_off.
Qed.
Print Assumptions C87_normal.
Example normal_wide : es_near_side 2 1 2 (V3 2 0 0) ∧ ¬ es_near_cut 2 1 2 (-1) 1 (V3 2 0 0) ∧ es_gradient 2 1 2 (V3 2 0 0) = V3 (1 / 2) 0 0.
Proof.
  pose proof tol_less. assert (M : es_short 2 1 2 = 1) by (unfold es_short; rewrite (Rmin_left 1 2), Rmin_right; lra). assert (E1 : ball_at 2 1 2 (V3 2 0 0) = 1) by (unfold ball_at; cbn [vx vy vz]; replace (2 / 2 * (2 / 2) + 0 / 1 * (0 / 1) + 0 / 2 * (0 / 2)) with 1 by field; apply sqrt_1). unfold es_near_side, es_near_cut. rewrite E1, M. cbn [vz]. rewrite Rmax_left by lra. rewrite Rabs_pos_eq by lra. rewrite Rabs_left by lra. unfold kHalfTolerance. split; [lra|]. split; [lra|]. unfold es_gradient. apply v3_eq; cbn; field.
Qed.
(** On the edge of a cut below the middle the sum of the two normals may be shorter than one, and is then returned as valid without being brought to length one. *)
Theorem C87_normal_unit_refuted : ¬ ∀ A B C zb zt p, sizes A B C zb zt → es_solid A B C zb zt p → let n := es_normal 0 (mk_ellipsoid A B C zb zt) p in snd n = true → vdot (fst n) (fst n) = 1.
Proof.
  intros H. pose proof tol_less as T. set (p := V3 3 0 (-4)). assert (SI : sizes 5 5 5 (-5) (-4)) by (repeat split; lra). assert (M : es_short 5 5 5 = 5) by (unfold es_short; rewrite !(Rmin_left 5 5) by lra; done).
  assert (F : ball_at 5 5 5 p = 1) by (unfold ball_at, p; cbn [vx vy vz]; replace (3 / 5 * (3 / 5) + 0 / 5 * (0 / 5) + -4 / 5 * (-4 / 5)) with 1 by field; apply sqrt_1).
  assert (S : es_solid 5 5 5 (-5) (-4) p) by (split; [cbn [vz p]; lra|lra]). specialize (H 5 5 5 (-5) (-4) p SI S).
  assert (N1 : es_near_side 5 5 5 p) by (unfold es_near_side; rewrite F, M, Rabs_pos_eq by lra; unfold kHalfTolerance; lra). assert (N2 : es_near_cut 5 5 5 (-5) (-4) p) by (unfold es_near_cut; rewrite M; cbn [vz p]; rewrite Rmax_left by lra; rewrite Rabs_pos_eq by lra; unfold kHalfTolerance; lra).
  destruct SI as (HA & HB & HC & Hz). destruct (side_normal_eq 5 5 5 (-5) (-4) HA HB HC Hz 0 p (Rle_refl 0) N1) as (k & K0 & E & _ & G). specialize (G eq_refl).
  assert (KV : k = 5). { assert (Q : vdot (vscale k (es_gradient 5 5 5 p)) (vscale k (es_gradient 5 5 5 p)) = k * k / 25) by (unfold vdot, es_gradient, p; cbn [vx vy vz vscale]; field). rewrite Q in G. clear - G K0. nra. } subst k.
  assert (EN : es_normal 0 (mk_ellipsoid 5 5 5 (-5) (-4)) p = (V3 (3 / 5) 0 (1 / 5), true)).
  { unfold es_normal. destruct (near_side_spec 5 5 5 (-5) (-4) HA HB HC Hz p); [|done]. destruct (near_cut_spec 5 5 5 (-5) (-4) HA HB HC Hz p); [|done]. rewrite E, cut_sign by done.
    assert (EV : V3 (vx (vscale 5 (es_gradient 5 5 5 p))) (vy (vscale 5 (es_gradient 5 5 5 p))) (vz (vscale 5 (es_gradient 5 5 5 p)) + rsign (vz p - (-5 + -4) / 2)) = V3 (3 / 5) 0 (1 / 5)). { unfold rsign. destruct (rltb_spec (vz p - (-5 + -4) / 2) 0) as [Q|Q]; [cbn [vz p] in Q; lra|]. unfold es_gradient, p. apply v3_eq; cbn [vx vy vz vscale]; field. }
    rewrite EV. assert (Q : vdot (V3 (3 / 5) 0 (1 / 5)) (V3 (3 / 5) 0 (1 / 5)) = 2 / 5) by (unfold vdot; cbn [vx vy vz]; field). rewrite Q. destruct (rgtb_spec (2 / 5) 1); [lra|]. rewrite Q. destruct (rgtb_spec (2 / 5) 0); [done|lra]. }
  rewrite EN in H. specialize (H eq_refl). unfold vdot in H. cbn [fst vx vy vz] in H. lra.
Qed.
Print Assumptions C87_normal_unit_refuted.
(** Far outside, level with a cut, the answer is valid. *)
Theorem C87_normal_valid_refuted kmin : ¬ ∀ A B C zb zt p, sizes A B C zb zt → snd (es_normal kmin (mk_ellipsoid A B C zb zt) p) = true → es_inside (mk_ellipsoid A B C zb zt) p = kSurface.
Proof.
  intros H. pose proof tol_less as T. assert (SI : sizes 1 1 1 0 1) by (repeat split; lra). set (p := V3 5 0 0). assert (E : ball_at 1 1 1 p = 5) by (unfold ball_at, p; cbn [vx vy vz]; replace (5 / 1 * (5 / 1) + 0 / 1 * (0 / 1) + 0 / 1 * (0 / 1)) with (5 * 5) by field; apply sqrt_square; lra). assert (M : es_short 1 1 1 = 1) by (unfold es_short; rewrite !(Rmin_left 1 1) by lra; done).
  pose proof SI as (HA & HB & HC & Hz). assert (O : es_inside (mk_ellipsoid 1 1 1 0 1) p = kOutside). { apply es_inside_out; [done..|]. intros (_ & _ & Q). rewrite E, M in Q. unfold kHalfTolerance in Q. lra. }
  rewrite (H 1 1 1 0 1 p) in O; [done|done|]. rewrite normal_cut; [done|done..| |].
  - unfold es_near_side. rewrite E, M. rewrite Rabs_pos_eq by lra. unfold kHalfTolerance. lra.
  - unfold es_near_cut. rewrite M. cbn [vz p]. rewrite Rmax_right by lra. rewrite Rabs_pos_eq by lra. unfold kHalfTolerance. lra.
Qed.
Print Assumptions C87_normal_valid_refuted.
(** Capacity is the volume between the cuts; SurfaceArea is the side's plus the two ellipses cut out. *)
Theorem C87_measures A B C zb zt : sizes A B C zb zt → let t := mk_ellipsoid A B C zb zt in
  es_capacity t = PI * A * B * ((zt - zb) - (zt ^ 3 - zb ^ 3) / (3 * (C * C))) ∧
  es_surface_area t = es_lateral_area 100 200 A B C zb zt + PI * A * B * (1 - zb / C * (zb / C)) + PI * A * B * (1 - zt / C * (zt / C)).
Proof.
  intros (HA & HB & HC & Hz) t. pose proof kTolerance_pos as T. unfold t, es_capacity, es_surface_area, mk_ellipsoid, es_check. rewrite axes_eq with (zb := zb) (zt := zt), cuts_eq with (A := A) (B := B) by done. set (L := es_lateral_area 100 200 A B C zb zt). clearbody L.
  destruct (rgtb_spec zb (- C)) as [G1|G1]; destruct (rltb_spec zt C) as [G2|G2]; cbn [es_volume es_area]; try (assert (zb = - C) as -> by lra); try (assert (zt = C) as -> by lra); split; field; lra.
Qed.
Print Assumptions C87_measures.
(** Every facet added up for the side has its four corners on the side, and its area is half that summand; the sum is doubled for the four quadrants. *)
Theorem C87_facets A B C zb zt nphi nz i j : sizes A B C zb zt → (i < nphi)%nat → (j < nz)%nat →
  (∃ p1 p2 p3 p4, es_side A B C zb zt p1 ∧ es_side A B C zb zt p2 ∧ es_side A B C zb zt p3 ∧ es_side A B C zb zt p4 ∧ es_facet nphi nz A B C zb zt i j = vmag (vcross (vsub p4 p1) (vsub p3 p2)) ∧
     vz p1 = zb + INR j * ((zt - zb) / INR nz) ∧ vz p2 = vz p1 ∧ vz p3 = zb + INR (j + 1) * ((zt - zb) / INR nz) ∧ vz p4 = vz p3 ∧
     vx p1 * (B * sin (INR i * (PI / 2 / INR nphi))) = vy p1 * (A * cos (INR i * (PI / 2 / INR nphi))) ∧ vx p4 * (B * sin (INR (i + 1) * (PI / 2 / INR nphi))) = vy p4 * (A * cos (INR (i + 1) * (PI / 2 / INR nphi)))) ∧
  0 <= es_lateral_area nphi nz A B C zb zt.
Proof.
  intros (HA & HB & HC & Hz) Hi Hj. pose proof kTolerance_pos as T. assert (NZ : 0 < INR nz) by (apply lt_0_INR; lia). assert (NP : 0 < INR nphi) by (apply lt_0_INR; lia). split.
  - set (dz := (zt - zb) / INR nz). set (dphi := PI / 2 / INR nphi).
    assert (RHO : ∀ k, (k <= nz)%nat → let z := zb + INR k * dz in zb <= z <= zt ∧ es_rho nz C zb zt k * es_rho nz C zb zt k + z / C * (z / C) = 1).
    { intros k K z. assert (K2 : INR k <= INR nz) by (by apply le_INR). pose proof (pos_INR k) as K0. assert (DZ : INR nz * dz = zt - zb) by (unfold dz; field; lra). assert (D0 : 0 < dz) by (unfold dz; apply Rdiv_lt_0_compat; lra). assert (ZR : zb <= z <= zt). { unfold z. assert (0 <= INR k * dz) by (apply Rmult_le_pos; lra). assert (INR k * dz <= INR nz * dz) by (apply Rmult_le_compat_r; lra). lra. } split; [done|].
      unfold es_rho. assert (ZE : (if (k <? nz)%nat then zb / C + INR k * ((zt / C - zb / C) / INR nz) else zt / C) = z / C). { destruct (Nat.ltb_spec k nz); [unfold z, dz; field; lra|]. assert (k = nz) as -> by lia. unfold z. rewrite DZ. f_equal. ring. }
      rewrite ZE. assert (E : z / C * C = z) by (field; lra). set (w := z / C) in *. clearbody w. assert (-1 <= w <= 1) by (split; apply Rmult_le_reg_r with C; lra). rewrite sqrt_sqrt by (apply Rmult_le_pos; lra). ring. }
    assert (SIDE : ∀ k a, (k <= nz)%nat → es_side A B C zb zt (V3 (es_rho nz C zb zt k * (cos a * A)) (es_rho nz C zb zt k * (sin a * B)) (zb + INR k * dz))).
    { intros k a K. destruct (RHO k K) as [R1 R2]. split; [|done]. unfold ball_at. cbn [vx vy vz]. set (r := es_rho nz C zb zt k) in *. set (z := zb + INR k * dz) in *. pose proof (sin2_cos2 a) as SC. unfold Rsqr in SC. replace (r * (cos a * A) / A * (r * (cos a * A) / A) + r * (sin a * B) / B * (r * (sin a * B) / B) + z / C * (z / C)) with ((sin a * sin a + cos a * cos a) * (r * r) + z / C * (z / C)) by (field; lra). rewrite SC, Rmult_1_l, R2. apply sqrt_1. }
    set (a1 := INR i * dphi). set (a2 := INR (i + 1) * dphi). unfold es_facet. fold dz dphi.
    assert (Z2 : (if (j =? nz - 1)%nat then zt else zb + INR j * dz + dz) = zb + INR (j + 1) * dz). { rewrite plus_INR. change (INR 1) with 1. destruct (Nat.eqb_spec j (nz - 1)) as [E|E]; [|ring]. assert (E2 : INR j + 1 = INR nz) by (rewrite <- S_INR; f_equal; lia). rewrite E2. unfold dz. field. lra. }
    assert (P2 : (if (i =? nphi - 1)%nat then PI / 2 else INR i * dphi + dphi) = a2). { unfold a2. rewrite plus_INR. change (INR 1) with 1. destruct (Nat.eqb_spec i (nphi - 1)) as [E|E]; [|ring]. assert (E2 : INR i + 1 = INR nphi) by (rewrite <- S_INR; f_equal; lia). rewrite E2. unfold dphi. field. lra. }
    rewrite Z2, P2. fold a1. eexists _, _, _, _. split; [apply (SIDE j a1); lia|]. split; [apply (SIDE j a2); lia|]. split; [apply (SIDE (j + 1)%nat a1); lia|]. split; [apply (SIDE (j + 1)%nat a2); lia|]. split; [done|]. cbn [vx vy vz]. repeat split; ring.
  - unfold es_lateral_area. apply Rmult_le_pos; [lra|]. unfold rsum. assert (K : ∀ l a, 0 <= a → (∀ x, In x l → 0 <= x) → 0 <= fold_left Rplus l a). { induction l as [|x l IH]; intros a H0 Hl; [done|]. cbn. apply IH; [pose proof (Hl x (or_introl eq_refl)); lra|]. intros y Hy. apply Hl. by right. }
    apply K; [lra|]. intros x Hx. apply in_concat in Hx. destruct Hx as (l & Hl & Hx). apply in_map_iff in Hl. destruct Hl as (k & <- & _). apply in_map_iff in Hx. destruct Hx as (k' & <- & _). unfold es_facet. apply vmag_nonneg.
Qed.
Print Assumptions C87_facets.
Lemma cuts_zero C : 2 * kTolerance <= C → es_cuts C 0 0 = (- C, C).
Proof.
  intros HC. pose proof tol_less as T. unfold es_cuts. destruct (reqb_spec 0 0); [|lra]. cbn [andb]. destruct (rgeb_spec (- C) C); [lra|]. destruct (rleb_spec C (- C)); [lra|]. cbn [orb]. rewrite Rmax_left, Rmin_left by lra. done.
Qed.
Lemma make_zero A B C : 2 * kTolerance <= A → 2 * kTolerance <= B → 2 * kTolerance <= C → mk_ellipsoid A B C 0 0 = mk_ellipsoid A B C (- C) C.
Proof. intros HA HB HC. pose proof tol_less as T. unfold mk_ellipsoid, es_check. rewrite axes_eq with (zb := - C) (zt := C) by lra. rewrite cuts_zero, cuts_eq with (A := A) (B := B) by lra. done. Qed.
Example measures_ball : let t := mk_ellipsoid 2 2 2 0 0 in es_capacity t = 4 / 3 * PI * 8.
Proof.
  intros t. pose proof tol_less as T. unfold t. rewrite make_zero by lra. destruct (C87_measures 2 2 2 (Ropp 2) 2) as [V _]; [repeat split; lra|]. cbv zeta in V. rewrite V. field.
Qed.
(** Which piece the first random number picks. *)
Theorem C87_choose A B C zb zt r : sizes A B C zb zt → let t := mk_ellipsoid A B C zb zt in let S := es_surface_area t in let bot := PI * A * B * (1 - zb / C * (zb / C)) in let top := PI * A * B * (1 - zt / C * (zt / C)) in
  (es_choose t r = 2%nat ↔ S - top < S * r) ∧ (es_choose t r = 1%nat ↔ bot < S * r <= S - top) ∧ (es_choose t r = 0%nat ↔ S * r <= bot ∧ S * r <= S - top).
Proof.
  intros (HA & HB & HC & Hz) t S bot top. destruct (fields A B C zb zt HA HB HC Hz) as (DX & DY & DZ & ZB & ZT & _). fold t in DX, DY, DZ, ZB, ZT. pose proof kTolerance_pos as T. unfold es_choose. rewrite DX, DY, DZ, ZB, ZT. fold S. replace (PI * A * B * (1 + zb / C) * (2 - (1 + zb / C))) with bot by (unfold bot; field; lra). replace (PI * A * B * (1 - zt / C) * (2 - (1 - zt / C))) with top by (unfold top; field; lra).
  clearbody S bot top. destruct (rgtb_spec (S * r) (S - top)); destruct (rgtb_spec (S * r) bot); repeat split; intros; try done; try lra.
Qed.
Print Assumptions C87_choose.
Lemma side_loop n A B C zb zt mu q u : 0 < C → - C <= zb → zb < zt <= C → (∀ i, 0 <= u i <= 1) → let v := es_side_loop (Datatypes.S n) A B C zb zt mu q u in vx v * vx v + vy v * vy v + vz v * vz v = 1 ∧ zb <= C * vz v <= zt.
Proof.
  intros C0 H1 H2. cbv zeta. revert q u. assert (ONE : ∀ u : nat → R, 0 <= u 0%nat <= 1 → let z := (zb + (zt - zb) * u 0%nat) / C in let rho := R_sqrt.sqrt ((1 + z) * (1 - z)) in let phi := 2 * PI * u 1%nat in (rho * cos phi) * (rho * cos phi) + (rho * sin phi) * (rho * sin phi) + z * z = 1 ∧ zb <= C * z <= zt).
  { intros u Hu z rho phi. assert (CZ : C * z = zb + (zt - zb) * u 0%nat) by (unfold z; field; lra). assert (ZR : zb <= C * z <= zt) by (rewrite CZ; split; nra). split; [|done]. pose proof (sin2_cos2 phi) as SC. unfold Rsqr in SC. assert (W : -1 <= z <= 1) by (clearbody z; split; apply Rmult_le_reg_l with C; lra). assert (RR : rho * rho = (1 + z) * (1 - z)) by (apply sqrt_sqrt, Rmult_le_pos; lra). replace (rho * cos phi * (rho * cos phi) + rho * sin phi * (rho * sin phi)) with ((sin phi * sin phi + cos phi * cos phi) * (rho * rho)) by ring. rewrite SC, RR. ring. }
  induction n as [|n IH]; intros q u Hu.
  - cbn [es_side_loop]. destruct (rleb _ _); cbn [vx vy vz]; apply (ONE u); apply Hu.
  - remember (Datatypes.S n) as k eqn:K. cbn [es_side_loop]. destruct (rleb _ _); [cbn [vx vy vz]; apply (ONE u); apply Hu|]. apply IH. intros i. apply Hu.
Qed.
Lemma zero_in_loop n a b u : in_ellipse_loop n 0 0 a b u = (0, 0).
Proof. destruct n; [done|]. cbn [in_ellipse_loop]. rewrite !Rmult_0_l, Rplus_0_l. destruct (rleb_spec 0 1); [done|lra]. Qed.
Lemma zero_in_ellipse u : random_in_ellipse 0 0 u = (0, 0).
Proof. unfold random_in_ellipse. apply zero_in_loop. Qed.
Lemma pick_scaled A B C z s x y : 2 * kTolerance <= A → 2 * kTolerance <= B → 0 < C → - C <= z <= C → s = R_sqrt.sqrt (1 - z / C * (z / C)) →
  (0 < s → ell (A * s) (B * s) (V3 x y 0) <= 1) → (s = 0 → x = 0 ∧ y = 0) → es_cut A B C z (V3 x y z).
Proof.
  intros HA HB C0 Hz Es I O. pose proof kTolerance_pos as T. split; [done|]. apply f_le_1. cbn [vx vy vz]. assert (E : z / C * C = z) by (field; lra). assert (W : -1 <= z / C <= 1) by (split; apply Rmult_le_reg_r with C; lra). assert (S0 : 0 <= s) by (rewrite Es; apply sqrt_pos). assert (SS : s * s = 1 - z / C * (z / C)) by (rewrite Es; apply sqrt_sqrt; clear - W; nra). set (w := z / C) in *. clearbody w. clear Es.
  destruct S0 as [S0|S0].
  - specialize (I S0). assert (R2 : x / (A * s) * (x / (A * s)) + y / (B * s) * (y / (B * s)) <= 1). { unfold ell in I. cbn [vx vy] in I. set (v := x / (A * s) * (x / (A * s)) + y / (B * s) * (y / (B * s))) in *. assert (V0 : 0 <= v) by (unfold v; clear; nra). assert (Q : R_sqrt.sqrt v * R_sqrt.sqrt v = v) by (by apply sqrt_sqrt). pose proof (sqrt_pos v). rewrite <- Q. clear - I H. nra. }
    replace (x / A * (x / A) + y / B * (y / B)) with (s * s * (x / (A * s) * (x / (A * s)) + y / (B * s) * (y / (B * s)))) by (field; lra). assert (s * s * (x / (A * s) * (x / (A * s)) + y / (B * s) * (y / (B * s))) <= s * s * 1) by (apply Rmult_le_compat_l; [clear; nra|done]). lra.
  - destruct (O (eq_sym S0)) as [-> ->]. replace (0 / A * (0 / A) + 0 / B * (0 / B)) with 0 by (field; lra). rewrite <- S0 in SS. lra.
Qed.
Lemma pick_cap A B C z u s : 2 * kTolerance <= A → 2 * kTolerance <= B → 0 < C → - C <= z <= C → s = R_sqrt.sqrt (1 - z / C * (z / C)) → es_cut A B C z (V3 (fst (random_in_ellipse (A * s) (B * s) u)) (snd (random_in_ellipse (A * s) (B * s) u)) z).
Proof.
  intros HA HB C0 Hz Es. pose proof kTolerance_pos as T. apply (pick_scaled A B C z s); [done..| |].
  - intros S0. apply (random_in (A * s) (B * s) u); apply Rmult_lt_0_compat; lra.
  - intros ->. rewrite !Rmult_0_r, zero_in_ellipse. done.
Qed.
(** SamplePointOnSurface gives a point of the picked piece, whatever the random numbers between 0 and 1 and the uninitialised variables. *)
Theorem C87_sample A B C zb zt r q0 u : sizes A B C zb zt → (∀ i, 0 <= u i <= 1) → let t := mk_ellipsoid A B C zb zt in let q := es_sample t r q0 u in
  match es_choose t r with 0%nat => es_cut A B C zb q | 1%nat => es_side A B C zb zt q | _ => es_cut A B C zt q end.
Proof.
  intros (HA & HB & HC & Hz) Hu t q. destruct (fields A B C zb zt HA HB HC Hz) as (DX & DY & DZ & ZB & ZT & _). fold t in DX, DY, DZ, ZB, ZT. pose proof kTolerance_pos as T. unfold q, es_sample. rewrite DX, DY, DZ, ZB, ZT. destruct (es_choose t r) as [|[|k]].
  - replace ((1 + zb / C) * (2 - (1 + zb / C))) with (1 - zb / C * (zb / C)) by ring. apply pick_cap; try lra; done.
  - remember 999%nat as n eqn:En. destruct (side_loop n A B C zb zt (Rmax (Rmax (A * B) (A * C)) (B * C)) q0 u ltac:(lra) ltac:(lra) ltac:(lra) Hu) as [E1 E2]. set (v := es_side_loop _ _ _ _ _ _ _ _ _) in *. split; [|done]. unfold ball_at. cbn [vx vy vz]. replace (A * vx v / A * (A * vx v / A) + B * vy v / B * (B * vy v / B) + C * vz v / C * (C * vz v / C)) with (vx v * vx v + vy v * vy v + vz v * vz v) by (field; lra). rewrite E1. apply sqrt_1.
  - replace ((1 - zt / C) * (2 - (1 - zt / C))) with (1 - zt / C * (zt / C)) by ring. apply pick_cap; try lra; done.
Qed.
Print Assumptions C87_sample.
Example sample_half : es_choose (mk_ellipsoid 1 1 1 0 1) 0 = 0%nat.
Proof.
  pose proof tol_less. pose proof PI_RGT_0. assert (SI : sizes 1 1 1 0 1) by (repeat split; lra). apply C87_choose; [done|]. destruct (C87_measures 1 1 1 0 1 SI) as [_ E]. cbv zeta in E. rewrite E. destruct (C87_facets 1 1 1 0 1 100 200 0 0 SI) as [_ L]; [lia|lia|]. lra.
Qed.
(** The mesh: every vertex is on the ellipsoid, every polygon uses existing vertices only. *)
Theorem C87_mesh A B C zb zt n : sizes A B C zb zt → let t := mk_ellipsoid A B C zb zt in
  length (es_vertices t n) = ((n + 1) * (n + 1))%nat ∧ (∀ v, v ∈ es_vertices t n → ball_at A B C v = 1) ∧ (∀ f i, f ∈ es_polygons t n → i ∈ f → (i < length (es_vertices t n))%nat).
Proof.
  intros (HA & HB & HC & Hz) t. destruct (fields A B C zb zt HA HB HC Hz) as (DX & DY & DZ & ZB & ZT & _). fold t in DX, DY, DZ, ZB, ZT. pose proof kTolerance_pos as T.
  assert (LEN : length (es_vertices t n) = ((n + 1) * (n + 1))%nat). { unfold es_vertices. cbv zeta. set (F := fun i : nat => List.map _ _). assert (K : ∀ l, length (List.concat (List.map F l)) = (length l * (n + 1))%nat). { induction l as [|a l IH]; [done|]. cbn [List.map List.concat]. rewrite app_length, IH. unfold F at 1. rewrite map_length, seq_length. cbn [length]. lia. } rewrite K, seq_length. done. }
  split; [done|]. split.
  - intros v. unfold es_vertices. rewrite DX, DY, DZ, ZB, ZT. cbv zeta. rewrite elem_of_list_In. intros Hv. apply in_concat in Hv. destruct Hv as (l & Hl & Hv). apply in_map_iff in Hl. destruct Hl as (i & <- & _). apply in_map_iff in Hv. destruct Hv as (j & <- & _).
    set (th := _ + INR i * _). set (ph := INR j * _). clearbody th ph. unfold ball_at. cbn [vx vy vz]. pose proof (sin2_cos2 th) as S1. pose proof (sin2_cos2 ph) as S2. unfold Rsqr in *.
    replace (A * sin th * cos ph / A * (A * sin th * cos ph / A) + B * sin th * sin ph / B * (B * sin th * sin ph / B) + C * cos th / C * (C * cos th / C)) with (sin th * sin th * (sin ph * sin ph + cos ph * cos ph) + cos th * cos th) by (field; lra). rewrite S2, Rmult_1_r, S1. apply sqrt_1.
  - intros f i Hf Hi. rewrite LEN. unfold es_polygons in Hf. rewrite !elem_of_app in Hf. destruct Hf as [Hf|[Hf|Hf]].
    + apply elem_of_list_In, in_concat in Hf. destruct Hf as (l & Hl & Hf). apply in_map_iff in Hl. destruct Hl as (j & <- & Hj). apply in_map_iff in Hf. destruct Hf as (k & <- & Hk). apply in_seq in Hj. apply in_seq in Hk. rewrite !elem_of_cons in Hi. destruct Hi as [->|[->|[->|[->|Hi]]]]; [nia..|]. by apply elem_of_nil in Hi.
    + destruct (reqb _ _); [by apply elem_of_nil in Hf|]. apply elem_of_list_singleton in Hf. subst f. apply elem_of_list_In, in_seq in Hi. nia.
    + destruct (reqb _ _); [by apply elem_of_nil in Hf|]. apply elem_of_list_singleton in Hf. subst f. apply elem_of_list_In, in_map_iff in Hi. destruct Hi as (k & <- & Hk). apply in_seq in Hk. nia.
Qed.
Print Assumptions C87_mesh.
(** The rows of the mesh are spread by an angle taken in proportion to the cut, not by the angle the cut is at: of the half between 0 and half the semi-axis all of the first row lies above the cut. *)
Theorem C87_mesh_cut_refuted : ¬ ∀ A B C zb zt n v, sizes A B C zb zt → v ∈ es_vertices (mk_ellipsoid A B C zb zt) n → zb <= vz v <= zt.
Proof.
  intros H. pose proof tol_less as T. assert (SI : sizes 2 2 2 0 1) by (repeat split; lra). specialize (H 2 2 2 0 1 1%nat (V3 (2 * sin (PI / 4) * cos 0) (2 * sin (PI / 4) * sin 0) (2 * cos (PI / 4))) SI). assert (V : 2 * cos (PI / 4) <= 1).
  { apply H. destruct SI as (HA & HB & HC & Hz). destruct (fields 2 2 2 0 1 HA HB HC Hz) as (DX & DY & DZ & ZB & ZT & _). unfold es_vertices. rewrite DX, DY, DZ, ZB, ZT. cbn [seq Nat.add List.map List.concat app]. replace (V3 (2 * sin (PI / 4) * cos 0) (2 * sin (PI / 4) * sin 0) (2 * cos (PI / 4))) with (V3 (2 * sin ((2 - 1) * PI / (2 * 2) + INR 0 * ((1 - 0) / (2 * 2) * PI / INR 1)) * cos (INR 0 * (2 * PI / INR 1))) (2 * sin ((2 - 1) * PI / (2 * 2) + INR 0 * ((1 - 0) / (2 * 2) * PI / INR 1)) * sin (INR 0 * (2 * PI / INR 1))) (2 * cos ((2 - 1) * PI / (2 * 2) + INR 0 * ((1 - 0) / (2 * 2) * PI / INR 1)))); [apply elem_of_list_here|]. assert (E1 : (2 - 1) * PI / (2 * 2) + INR 0 * ((1 - 0) / (2 * 2) * PI / INR 1) = PI / 4) by (cbn [INR]; field). assert (E2 : INR 0 * (2 * PI / INR 1) = 0) by (cbn [INR]; ring). rewrite E1, E2. done. }
  rewrite cos_PI4 in V. pose proof (sqrt_lt_R0 2 ltac:(lra)) as S0. assert (S : R_sqrt.sqrt 2 * R_sqrt.sqrt 2 = 2) by (apply sqrt_sqrt; lra). set (s := R_sqrt.sqrt 2) in *. assert (E : 2 * (1 / s) * s = 2) by (field; lra). clear - V S0 S E. nra.
Qed.
Print Assumptions C87_mesh_cut_refuted.
(** SetZCuts gives what the constructor would with the stored semi-axes; the constructor keeps sizes that are in range, gives the smallest ball for a semi-axis A or B below two tolerances,
    no cuts for two zeros or cuts that leave nothing, and clamps the others. *)
Theorem C87_make A B C zb zt : 2 * kTolerance <= C → let t := mk_ellipsoid A B C zb zt in let C' := es_dz t in
  (2 * kTolerance <= A → 2 * kTolerance <= B → es_dx t = A ∧ es_dy t = B ∧ es_dz t = C ∧ ∀ b e, es_set_cuts t b e = mk_ellipsoid A B C b e) ∧
  (A < 2 * kTolerance ∨ B < 2 * kTolerance → es_dx t = 2 * kTolerance ∧ es_dy t = 2 * kTolerance ∧ es_dz t = 2 * kTolerance) ∧
  (- C' <= es_zb t < es_zt t ∧ es_zt t <= C') ∧
  (zb = 0 ∧ zt = 0 ∨ C' <= zb ∨ zt <= - C' ∨ zt <= zb → es_zb t = - C' ∧ es_zt t = C') ∧
  (zb < C' → - C' < zt → zb < zt → es_zb t = Rmax zb (- C') ∧ es_zt t = Rmin zt C').
Proof.
  intros HC t. pose proof tol_less as T. set (ax := es_axes A B C). assert (AX : es_dx t = fst (fst ax) ∧ es_dy t = snd (fst ax) ∧ es_dz t = snd ax ∧ es_zb t = fst (es_cuts (snd ax) zb zt) ∧ es_zt t = snd (es_cuts (snd ax) zb zt)).
  { unfold t, mk_ellipsoid, es_check. fold ax. destruct ax as [[a b] c]. cbn [fst snd]. destruct (es_cuts c zb zt) as [x y]. destruct (rgtb x (- c)); destruct (rltb y c); cbn; done. }
  destruct AX as (E1 & E2 & E3 & E4 & E5). intros C'. assert (CC : 2 * kTolerance <= C'). { unfold C'. rewrite E3. unfold ax, es_axes. destruct (_ || _); cbn [snd]; lra. } assert (CE : snd ax = C') by (unfold C'; by rewrite E3). rewrite CE in E4, E5. clearbody C'. split; [|split; [|split; [|split]]].
  - intros HA HB. assert (AE : ax = (A, B, C)). { unfold ax, es_axes. destruct (rltb_spec A (2 * kTolerance)); [lra|]. destruct (rltb_spec B (2 * kTolerance)); [lra|]. done. } rewrite AE in E1, E2, E3. cbn [fst snd] in E1, E2, E3. do 3 (split; [done|]). intros b e. unfold es_set_cuts. rewrite E1, E2, E3. done.
  - intros L. assert (AE : ax = (2 * kTolerance, 2 * kTolerance, 2 * kTolerance)). { unfold ax, es_axes. destruct (rltb_spec A (2 * kTolerance)); [done|]. destruct (rltb_spec B (2 * kTolerance)); [done|]. lra. } rewrite AE in E1, E2, E3. done.
  - rewrite E4, E5. unfold es_cuts. assert (K : ∀ x y, let '(b, e) := (if rgeb x C' || rleb y (- C') || rgeb x y then (- C', C') else (x, y)) in - C' <= Rmax b (- C') < Rmin e C' ∧ Rmin e C' <= C'). { intros x y. pose proof (Rmax_r x (- C')). pose proof (Rmin_r y C'). destruct (rgeb_spec x C'); cbn [orb]; [rewrite Rmax_left, Rmin_left by lra; lra|]. destruct (rleb_spec y (- C')); cbn [orb]; [rewrite Rmax_left, Rmin_left by lra; lra|]. destruct (rgeb_spec x y); [rewrite Rmax_left, Rmin_left by lra; lra|]. split; [|done]. split; [done|]. unfold Rmax, Rmin. destruct (Rle_dec _ _), (Rle_dec _ _); lra. }
    destruct (reqb zb 0 && reqb zt 0); [specialize (K (- C') C')|specialize (K zb zt)]; destruct (if _ || _ || _ then _ else _) as [b e]; done.
  - intros L. rewrite E4, E5. unfold es_cuts. assert (K : ∀ x y, C' <= x ∨ y <= - C' ∨ y <= x ∨ x = - C' ∧ y = C' → (if rgeb x C' || rleb y (- C') || rgeb x y then (- C', C') else (x, y)) = (- C', C')). { intros x y D. destruct (rgeb_spec x C'); [done|]. destruct (rleb_spec y (- C')); [done|]. destruct (rgeb_spec x y); [done|]. cbn [orb]. destruct D as [D|[D|[D|[-> ->]]]]; try lra. done. }
    destruct (reqb_spec zb 0) as [Z1|Z1], (reqb_spec zt 0) as [Z2|Z2]; cbn [andb]; rewrite K; cbn [fst snd]; try (rewrite Rmax_left, Rmin_left by lra; done); try tauto; lra.
  - intros L1 L2 L3. rewrite E4, E5. unfold es_cuts. assert (Q : reqb zb 0 && reqb zt 0 = false). { destruct (reqb_spec zb 0), (reqb_spec zt 0); cbn; try done. lra. } rewrite Q. destruct (rgeb_spec zb C'); [lra|]. destruct (rleb_spec zt (- C')); [lra|]. destruct (rgeb_spec zb zt); [lra|]. done.
Qed.
Print Assumptions C87_make.
(** A semi-axis C below two tolerances goes unchecked, even a negative one: the test of the constructor reads fDy twice. *)
Theorem C87_dz_refuted : ¬ (∀ A B C zb zt, 2 * kTolerance <= es_dz (mk_ellipsoid A B C zb zt)) ∧ es_dz (mk_ellipsoid 1 1 (-1) 0 0) = -1.
Proof.
  assert (E : es_dz (mk_ellipsoid 1 1 (-1) 0 0) = -1). { pose proof tol_less as T. unfold mk_ellipsoid, es_check. assert (AX : es_axes 1 1 (-1) = (1, 1, -1)) by (unfold es_axes; destruct (rltb_spec 1 (2 * kTolerance)); [lra|done]). rewrite AX. destruct (es_cuts (-1) 0 0) as [x y]. destruct (rgtb x _); destruct (rltb y _); done. }
  split; [|done]. intros H. specialize (H 1 1 (-1) 0 0). rewrite E in H. pose proof tol_less. lra.
Qed.
Print Assumptions C87_dz_refuted.
(** SetSemiAxes keeps the old cuts: an uncut ball made larger becomes a ball with cuts. *)
Theorem C87_set_axes_refuted : ¬ (∀ A B C A' B' C', 2 * kTolerance <= A → 2 * kTolerance <= B → 2 * kTolerance <= C → 2 * kTolerance <= A' → 2 * kTolerance <= B' → 2 * kTolerance <= C' →
    es_set_axes (mk_ellipsoid A B C 0 0) A' B' C' = mk_ellipsoid A' B' C' 0 0) ∧
  (∀ A B C zb zt A' B' C', sizes A B C zb zt → es_set_axes (mk_ellipsoid A B C zb zt) A' B' C' = mk_ellipsoid A' B' C' zb zt).
Proof.
  pose proof tol_less as T. assert (K : ∀ A B C zb zt A' B' C', sizes A B C zb zt → es_set_axes (mk_ellipsoid A B C zb zt) A' B' C' = mk_ellipsoid A' B' C' zb zt). { intros A B C zb zt A' B' C' (HA & HB & HC & Hz). destruct (fields A B C zb zt HA HB HC Hz) as (_ & _ & _ & ZB & ZT & _). unfold es_set_axes. rewrite ZB, ZT. done. }
  split; [|done]. intros H. specialize (H 1 1 1 2 2 2 ltac:(lra) ltac:(lra) ltac:(lra) ltac:(lra) ltac:(lra) ltac:(lra)). rewrite (make_zero 1 1 1), (make_zero 2 2 2), K in H by (repeat split; lra). assert (Q : es_zt (mk_ellipsoid 2 2 2 (Ropp 1) 1) = es_zt (mk_ellipsoid 2 2 2 (Ropp 2) 2)) by (by rewrite H).
  assert (E1 : es_zt (mk_ellipsoid 2 2 2 (Ropp 1) 1) = 1) by (apply (fields 2 2 2 (Ropp 1) 1); lra). assert (E2 : es_zt (mk_ellipsoid 2 2 2 (Ropp 2) 2) = 2) by (apply (fields 2 2 2 (Ropp 2) 2); lra). lra.
Qed.
Print Assumptions C87_set_axes_refuted.
