(** C84: corners, capacity, areas, sampling, extent, mesh, setters and makers of Trds. *)
From Coq Require Import Reals Lra Lia Bool ZArith Psatz.
From stdpp Require Import base list option numbers tactics.
From Verif Require Import Real3 AABBModel BoxModel BoxProofs PlanesModel PlanesSpec PlanesProofs TrapSpec TrapModel TrapProofs TrdModel TrdSpec TrdProofs TrdProofs2.
From Verif Require PropTrap PropTrap2 PropTrap3 PropTrd.
Import stdpp.list.
Local Open Scope R_scope.

Section Trd.
Variables (k : trd_type) (x1 x2 y1 y2 dz : R).
Hypothesis Hz : 0 < dz.
Hypotheses (Hx1 : 0 <= x1) (Hx2 : 0 <= x2) (Hy1 : 0 <= y1) (Hy2 : 0 <= y2).
Let t := trd_struct x1 x2 y1 y2 dz.
Let gx := (x2 - x1) / (2 * dz).
Let gy := (y2 - y1) / (2 * dz).
Let S := frustum x1 x2 y1 y2 dz.
Let B := box_corners x1 x2 y1 y2 dz.
Let Q := rough x1 x2 y1 y2 dz.
Lemma height_vdot n c p : height n c p = vdot p n + c.
Proof using. unfold height, vdot. ring. Qed.
Lemma corners_in v : In v B → S v.
Proof using Hz Hx1 Hx2 Hy1 Hy2.
  intros Hi. cbn in Hi. unfold S, frustum. destruct Hi as [<-|[<-|[<-|[<-|[<-|[<-|[<-|[<-|[]]]]]]]]]; cbn [vx vy vz]; rewrite ?width_top, ?width_low by done; rewrite ?Rabs_Ropp, !Rabs_pos_eq by lra; lra.
Qed.
(** The solid is the hull of its eight corners. *)
Theorem C84_hull p : S p ↔ hull B p.
Proof using Hz Hx1 Hx2 Hy1 Hy2.
  split.
  - intros (A & E & G). apply abs_two in A, E, G. set (wx := width dz x1 x2 (vz p)) in *. set (wy := width dz y1 y2 (vz p)) in *.
    assert (K : ∀ a w, - w <= a <= w → ∃ s, 0 <= s <= 1 ∧ a = (2 * s - 1) * w).
    { intros a w H. destruct (Req_dec w 0) as [->|N]; [exists (1 / 2); split; lra|]. exists ((a / w + 1) / 2). assert (0 < w) by lra. assert (-1 <= a / w <= 1) by (split; apply Rmult_le_reg_r with w; try done; replace (a / w * w) with a by (field; lra); lra). split; [lra|field; lra]. }
    destruct (K (vx p) wx ltac:(lra)) as (a & Ha & Ea). destruct (K (vy p) wy ltac:(lra)) as (b & Hb & Eb). set (u := (dz + vz p) / (2 * dz)). assert (Hu : 0 <= u <= 1) by (unfold u; split; [apply div_nonneg; lra|apply div_le; lra]).
    assert (Ex : wx = (1 - u) * x1 + u * x2) by (unfold wx, width, u; field; lra). assert (Ey : wy = (1 - u) * y1 + u * y2) by (unfold wy, width, u; field; lra). assert (Ezz : vz p = (2 * u - 1) * dz) by (unfold u; field; lra). clearbody u.
    exists [(1 - u) * (1 - a) * (1 - b); (1 - u) * a * (1 - b); (1 - u) * (1 - a) * b; (1 - u) * a * b; u * (1 - a) * (1 - b); u * a * (1 - b); u * (1 - a) * b; u * a * b].
    split; [done|]. split; [repeat apply Forall_cons_2; try apply Forall_nil_2; repeat apply Rmult_le_pos; lra|]. split; [cbn; ring|].
    apply v3_eq; cbn; [rewrite Ea, Ex|rewrite Eb, Ey|rewrite Ezz]; ring.
  - intros H. apply S_rough; [done|]. intros n c Hi. unfold under. rewrite height_vdot. assert (vdot p n <= - c); [|lra]. apply (hull_below B p); [done|]. intros v Hv. apply corners_in in Hv. apply S_rough in Hv; [|done]. specialize (Hv n c Hi). unfold under in Hv. rewrite height_vdot in Hv. lra.
Qed.
(** The same corners as the trapezoid without skew; with positive lengths the trapezoid and the Trd contain the same points. *)
Theorem C84_trapezoid p : B = eight dz 0 0 y1 x1 x1 0 y2 x2 x2 0 ∧ (S p ↔ hull (eight dz 0 0 y1 x1 x1 0 y2 x2 x2 0) p).
Proof using Hz Hx1 Hx2 Hy1 Hy2.
  assert (E : B = eight dz 0 0 y1 x1 x1 0 y2 x2 x2 0) by (unfold B, box_corners, eight, low_corner, high_corner; do 8 (apply PropTrap.cons_eq; [apply v3_eq; cbn [vx vy vz]; ring|]); reflexivity).
  split; [done|]. rewrite <- E. apply C84_hull.
Qed.

(** Capacity: the integral of the areas of the rectangles. *)
Theorem C84_capacity : ∃ F, (∀ z, derivable_pt_lim F z (2 * width dz x1 x2 z * (2 * width dz y1 y2 z))) ∧ F dz - F (- dz) = trd_capacity t.
Proof using Hz.
  set (a0 := (x1 + x2) / 2). set (b0 := (y1 + y2) / 2). exists (λ z, 4 * a0 * b0 * z + 2 * (a0 * gy + b0 * gx) * z ^ 2 + 4 * gx * gy / 3 * z ^ 3). split.
  - intros z. replace (2 * width dz x1 x2 z * (2 * width dz y1 y2 z)) with (4 * a0 * b0 + 2 * (a0 * gy + b0 * gx) * (2 * z) + 4 * gx * gy / 3 * (3 * z ^ 2)); [apply PropTrap3.cubic_derive|]. unfold width, a0, b0, gx, gy. field. lra.
  - unfold trd_capacity, a0, b0, gx, gy. cbn [t trd_struct calculate_cached td_x1 td_x2 td_y1 td_y2 td_z]. field. lra.
Qed.

(** Areas of the triangles of the side faces and of the lids. *)
Lemma slant d : R_sqrt.sqrt (4 * dz * dz + d * d) = 2 * dz * secant (d / (2 * dz)).
Proof using Hz.
  unfold secant. replace (4 * dz * dz + d * d) with ((2 * dz) * (2 * dz) * (1 + d / (2 * dz) * (d / (2 * dz)))) by (field; lra). rewrite R_sqrt.sqrt_mult_alt by nra. rewrite R_sqrt.sqrt_square by lra. done.
Qed.
Lemma mag_of v m : 0 <= m → vdot v v = m * m → vmag v = m.
Proof using. intros Hm E. unfold vmag. rewrite E. by apply R_sqrt.sqrt_square. Qed.
Lemma sec_sqr g : secant g * secant g = 1 + g * g.
Proof using. unfold secant. apply R_sqrt.sqrt_sqrt. nra. Qed.
Lemma area_of a b c r : 0 <= r → 4 * (r * r) = vdot (vcross (vsub b a) (vsub c a)) (vcross (vsub b a) (vsub c a)) → triangle_area a b c = r.
Proof using. intros Hr E. unfold triangle_area. rewrite (mag_of _ (2 * r)); [lra|lra|]. rewrite <- E. ring. Qed.
Definition tri_area (q : v3 * v3 * v3) : R := let '(a, b, c) := q in triangle_area a b c.
Lemma sx_sec : td_sx t = secant gx.
Proof using Hz. unfold t, trd_struct, calculate_cached, secant. cbn [td_sx]. f_equal. unfold gx. field. lra. Qed.
Lemma sy_sec : td_sy t = secant gy.
Proof using Hz. unfold t, trd_struct, calculate_cached, secant. cbn [td_sy]. f_equal. unfold gy. field. lra. Qed.
(** Each share is the area of its triangle. *)
Theorem C84_shares i : 0 < x1 + x2 → 0 < y1 + y2 → (i < 12)%nat → nth_error (trd_shares t) i = Some (tri_area (trd_triangle t i)).
Proof using Hz Hx1 Hx2 Hy1 Hy2.
  intros Px Py Hi. pose proof (sec_sqr gx) as Qx. pose proof (sec_sqr gy) as Qy. pose proof (secant_pos gx). pose proof (secant_pos gy).
  assert (Dx : x2 - x1 = 2 * dz * gx) by (unfold gx; field; lra). assert (Dy : y2 - y1 = 2 * dz * gy) by (unfold gy; field; lra).
  assert (YA : y_area t / (td_x1 t + td_x2 t) = 2 * dz * secant gy) by (unfold y_area; rewrite sy_sec; change (td_x1 t) with x1; change (td_x2 t) with x2; change (td_z t) with dz; field; lra).
  assert (XA : x_area t / (td_y1 t + td_y2 t) = 2 * dz * secant gx) by (unfold x_area; rewrite sx_sec; change (td_y1 t) with y1; change (td_y2 t) with y2; change (td_z t) with dz; field; lra).
  unfold trd_shares. rewrite YA, XA. unfold low_area, high_area. change (td_y1 t) with y1. change (td_y2 t) with y2. change (td_x1 t) with x1. change (td_x2 t) with x2.
  assert (P1 : 0 <= x1 * y1) by (apply Rmult_le_pos; done). assert (P2 : 0 <= x2 * y2) by (apply Rmult_le_pos; done).
  assert (N : ∀ s a, 1 <= s → 0 <= a → 0 <= 2 * dz * s * a) by (intros; repeat apply Rmult_le_pos; lra).
  assert (TX : ∀ a, 4 * (2 * dz * secant gx * a * (2 * dz * secant gx * a)) = 16 * (a * a) * (dz * dz + dz * dz * (gx * gx))) by (intros a; replace (4 * (2 * dz * secant gx * a * (2 * dz * secant gx * a))) with (16 * (a * a) * (dz * dz) * (secant gx * secant gx)) by ring; rewrite Qx; ring).
  assert (TY : ∀ a, 4 * (2 * dz * secant gy * a * (2 * dz * secant gy * a)) = 16 * (a * a) * (dz * dz + dz * dz * (gy * gy))) by (intros a; replace (4 * (2 * dz * secant gy * a * (2 * dz * secant gy * a))) with (16 * (a * a) * (dz * dz) * (secant gy * secant gy)) by ring; rewrite Qy; ring).
  assert (X2 : x2 = x1 + 2 * dz * gx) by lra. assert (Y2 : y2 = y1 + 2 * dz * gy) by lra.
  do 12 (destruct i as [|i]; [cbn [nth_error trd_triangle tri_area]; f_equal; symmetry; change (td_y1 t) with y1; change (td_y2 t) with y2; change (td_x1 t) with x1; change (td_x2 t) with x2; change (td_z t) with dz;
    apply area_of; [first [apply N; lra | lra]|]; rewrite ?TX, ?TY; unfold vdot, vcross, vsub; cbn [vx vy vz]; rewrite ?X2, ?Y2; field|]). lia.
Qed.
(** The six faces. *)
Definition face_areas : R :=
  quad_area (V3 x1 (- y1) (- dz)) (V3 x1 y1 (- dz)) (V3 x2 y2 dz) (V3 x2 (- y2) dz) + quad_area (V3 (- x1) (- y1) (- dz)) (V3 (- x1) y1 (- dz)) (V3 (- x2) y2 dz) (V3 (- x2) (- y2) dz) +
  (quad_area (V3 (- x1) y1 (- dz)) (V3 x1 y1 (- dz)) (V3 x2 y2 dz) (V3 (- x2) y2 dz) + quad_area (V3 (- x1) (- y1) (- dz)) (V3 x1 (- y1) (- dz)) (V3 x2 (- y2) dz) (V3 (- x2) (- y2) dz)) +
  (quad_area (V3 (- x1) (- y1) (- dz)) (V3 x1 (- y1) (- dz)) (V3 x1 y1 (- dz)) (V3 (- x1) y1 (- dz)) + quad_area (V3 (- x2) (- y2) dz) (V3 x2 (- y2) dz) (V3 x2 y2 dz) (V3 (- x2) y2 dz)).
Theorem C84_face_areas : face_areas = 2 * x_area t + 2 * y_area t + (high_area t + low_area t).
Proof using Hz Hx1 Hx2 Hy1 Hy2.
  pose proof (sec_sqr gx) as Qx. pose proof (sec_sqr gy) as Qy. pose proof (secant_pos gx). pose proof (secant_pos gy).
  assert (X2 : x2 = x1 + 2 * dz * gx) by (unfold gx; field; lra). assert (Y2 : y2 = y1 + 2 * dz * gy) by (unfold gy; field; lra).
  assert (P1 : 0 <= x1 * y1) by (apply Rmult_le_pos; done). assert (P2 : 0 <= x2 * y2) by (apply Rmult_le_pos; done).
  assert (N : ∀ s a, 1 <= s → 0 <= a → 0 <= 2 * dz * s * a) by (intros; repeat apply Rmult_le_pos; lra).
  assert (TX : ∀ a, 4 * (2 * dz * secant gx * a * (2 * dz * secant gx * a)) = 16 * (a * a) * (dz * dz + dz * dz * (gx * gx))) by (intros a; replace (4 * (2 * dz * secant gx * a * (2 * dz * secant gx * a))) with (16 * (a * a) * (dz * dz) * (secant gx * secant gx)) by ring; rewrite Qx; ring).
  assert (TY : ∀ a, 4 * (2 * dz * secant gy * a * (2 * dz * secant gy * a)) = 16 * (a * a) * (dz * dz + dz * dz * (gy * gy))) by (intros a; replace (4 * (2 * dz * secant gy * a * (2 * dz * secant gy * a))) with (16 * (a * a) * (dz * dz) * (secant gy * secant gy)) by ring; rewrite Qy; ring).
  assert (FX : ∀ s, s = 1 ∨ s = -1 → quad_area (V3 (s * x1) (- y1) (- dz)) (V3 (s * x1) y1 (- dz)) (V3 (s * x2) y2 dz) (V3 (s * x2) (- y2) dz) = x_area t).
  { intros s Hs. unfold quad_area, x_area. rewrite sx_sec. change (td_y1 t) with y1. change (td_y2 t) with y2. change (td_z t) with dz. rewrite (area_of _ _ _ (2 * dz * secant gx * y1)), (area_of _ _ _ (2 * dz * secant gx * y2)); [ring|apply N; lra| |apply N; lra|]; rewrite TX; unfold vdot, vcross, vsub; cbn [vx vy vz]; rewrite ?X2, ?Y2; destruct Hs as [-> | ->]; ring. }
  assert (FY : ∀ s, s = 1 ∨ s = -1 → quad_area (V3 (- x1) (s * y1) (- dz)) (V3 x1 (s * y1) (- dz)) (V3 x2 (s * y2) dz) (V3 (- x2) (s * y2) dz) = y_area t).
  { intros s Hs. unfold quad_area, y_area. rewrite sy_sec. change (td_x1 t) with x1. change (td_x2 t) with x2. change (td_z t) with dz. rewrite (area_of _ _ _ (2 * dz * secant gy * x1)), (area_of _ _ _ (2 * dz * secant gy * x2)); [ring|apply N; lra| |apply N; lra|]; rewrite TY; unfold vdot, vcross, vsub; cbn [vx vy vz]; rewrite ?X2, ?Y2; destruct Hs as [-> | ->]; ring. }
  assert (FZ : ∀ a b h, 0 <= a * b → quad_area (V3 (- a) (- b) h) (V3 a (- b) h) (V3 a b h) (V3 (- a) b h) = 4 * a * b).
  { intros a b h Hab. unfold quad_area. rewrite (area_of _ _ _ (2 * (a * b))), (area_of _ _ _ (2 * (a * b))); [ring|lra| |lra|]; unfold vdot, vcross, vsub; cbn [vx vy vz]; ring. }
  unfold face_areas. pose proof (FX 1 ltac:(auto)) as F1. pose proof (FX (-1) ltac:(auto)) as F2. pose proof (FY 1 ltac:(auto)) as F3. pose proof (FY (-1) ltac:(auto)) as F4. rewrite !Rmult_1_l in F1, F3.
  replace (-1 * x1) with (- x1) in F2 by ring. replace (-1 * x2) with (- x2) in F2 by ring. replace (-1 * y1) with (- y1) in F4 by ring. replace (-1 * y2) with (- y2) in F4 by ring.
  rewrite F1, F2, F3, F4, !FZ by done. unfold high_area, low_area. change (td_y1 t) with y1. change (td_y2 t) with y2. change (td_x1 t) with x1. change (td_x2 t) with x2. ring.
Qed.
(** SurfaceArea takes the slant height of the x faces for the y faces too: right only when the slopes have the same size
    or there are no y faces. *)
Theorem C84_area : trd_area t = face_areas ↔ Rabs (x1 - x2) = Rabs (y1 - y2) ∨ x1 + x2 = 0.
Proof using Hz Hx1 Hx2 Hy1 Hy2.
  rewrite C84_face_areas. unfold trd_area, x_area, y_area, high_area, low_area. rewrite sx_sec, sy_sec. change (td_y1 t) with y1. change (td_y2 t) with y2. change (td_x1 t) with x1. change (td_x2 t) with x2. change (td_z t) with dz. cbv zeta.
  assert (HT : (if reqb x1 x2 then 2 * dz else R_sqrt.sqrt ((x1 - x2) * (x1 - x2) + 2 * dz * (2 * dz))) = 2 * dz * secant gx).
  { destruct (reqb_spec x1 x2) as [E|E]; [unfold gx; rewrite E; replace ((x2 - x2) / (2 * dz)) with 0 by (field; lra); rewrite secant_0; ring|]. unfold gx. rewrite <- slant. f_equal. ring. }
  rewrite HT. pose proof (sec_sqr gx) as Qx. pose proof (sec_sqr gy) as Qy. pose proof (secant_pos gx). pose proof (secant_pos gy).
  assert (SG : secant gx = secant gy ↔ Rabs (x1 - x2) = Rabs (y1 - y2)).
  { assert (G : gx * gx = gy * gy ↔ Rabs (x1 - x2) = Rabs (y1 - y2)).
    { assert (Ex : x1 - x2 = - (2 * dz * gx)) by (unfold gx; field; lra). assert (Ey : y1 - y2 = - (2 * dz * gy)) by (unfold gy; field; lra). split.
      - intros E. apply Rsqr_eq_abs_0. unfold Rsqr. rewrite Ex, Ey. replace (- (2 * dz * gx) * - (2 * dz * gx)) with (4 * dz * dz * (gx * gx)) by ring. rewrite E. ring.
      - intros E. apply Rsqr_eq_asb_1 in E. unfold Rsqr in E. rewrite Ex, Ey in E. assert (D : 0 < 4 * (dz * dz)) by nra. apply (Rmult_eq_reg_l (4 * (dz * dz))); [|lra]. lra. }
    rewrite <- G. split; intros E; [rewrite <- E in Qy; lra|unfold secant; by rewrite E]. }
  rewrite <- SG. split.
  - intros E. assert (E0 : (x1 + x2) * (dz * (secant gx - secant gy)) = 0) by lra. apply Rmult_integral in E0 as [E0|E0]; [by right|left]. apply Rmult_integral in E0 as [E0|E0]; lra.
  - intros [E|E]; [rewrite E; field|]. rewrite E. field.
Qed.
(** The choice of the triangle: by shares. *)
Lemma pick_some rand l : Forall (Rle 0) l → rand <= foldr Rplus 0 l → l ≠ [] → ∃ i, pick rand l = Some i ∧ (i < length l)%nat ∧ (foldr Rplus 0 (take i l) < rand ∨ i = 0%nat) ∧ rand <= foldr Rplus 0 (take (Datatypes.S i) l).
Proof using.
  clear. intros F. revert rand. induction F as [|s l Hs F IH]; intros rand Hr Hn; [done|]. cbn [pick]. destruct (rgtb_spec rand s) as [G|G].
  - cbn [foldr] in Hr. destruct (IH (rand - s)) as (i & E & L & A & D); [lra|intros ->; cbn in Hr; lra|]. exists (Datatypes.S i). rewrite E. cbn [fmap option_fmap option_map]. split; [done|]. split; [cbn; lia|]. change (take (Datatypes.S (Datatypes.S i)) (s :: l)) with (s :: take (Datatypes.S i) l). change (take (Datatypes.S i) (s :: l)) with (s :: take i l). cbn [foldr].
    split; [left|lra]. destruct A as [A|A]; [lra|]. rewrite A. change (take 0 l) with (@nil R). cbn [foldr]. lra.
  - exists 0%nat. split; [done|]. split; [cbn; lia|]. split; [by right|]. cbn. change (take 0 l) with (@nil R). cbn. lra.
Qed.
Lemma foldl_sum l a : foldl Rplus a l = a + foldr Rplus 0 l.
Proof using. clear. revert a. induction l as [|s l IH]; intros a; cbn; [lra|]. rewrite IH. lra. Qed.
Theorem C84_choose r : 0 < x1 + x2 → 0 < y1 + y2 → 0 <= r <= 1 →
  let upto i := foldr Rplus 0 (List.map (λ i, tri_area (trd_triangle t i)) (seq 0 i)) in
  upto 12%nat = face_areas ∧ ∃ i, choose_surface t r = Some i ∧ (i < 12)%nat ∧ (upto i < r * face_areas ∨ i = 0%nat) ∧ r * face_areas <= upto (Datatypes.S i).
Proof using Hz Hx1 Hx2 Hy1 Hy2.
  intros Px Py Hr upto. assert (Sh : trd_shares t = List.map (λ i, tri_area (trd_triangle t i)) (seq 0 12)).
  { assert (K : ∀ i, (i < 12)%nat → nth_error (trd_shares t) i = Some (tri_area (trd_triangle t i))) by (intros; by apply C84_shares). unfold trd_shares in *.
    cbn [List.map seq]. repeat f_equal; [pose proof (K 0%nat ltac:(lia)) as E|pose proof (K 1%nat ltac:(lia)) as E|pose proof (K 2%nat ltac:(lia)) as E|pose proof (K 3%nat ltac:(lia)) as E|pose proof (K 4%nat ltac:(lia)) as E|pose proof (K 5%nat ltac:(lia)) as E|pose proof (K 6%nat ltac:(lia)) as E|pose proof (K 7%nat ltac:(lia)) as E|pose proof (K 8%nat ltac:(lia)) as E|pose proof (K 9%nat ltac:(lia)) as E|pose proof (K 10%nat ltac:(lia)) as E|pose proof (K 11%nat ltac:(lia)) as E]; cbn [nth_error] in E; injection E as E; exact E. }
  assert (Up : ∀ i, (i <= 12)%nat → take i (trd_shares t) = List.map (λ i, tri_area (trd_triangle t i)) (seq 0 i)).
  { intros i Hi. rewrite Sh. do 13 (destruct i as [|i]; [reflexivity|]). lia. }
  assert (F : Forall (Rle 0) (trd_shares t)). { rewrite Sh. apply Forall_forall. intros s Hs. apply elem_of_list_In, in_map_iff in Hs as (i & <- & _). unfold tri_area, triangle_area. destruct (trd_triangle t i) as [[a b] c]. pose proof (vmag_nonneg (vcross (vsub b a) (vsub c a))). lra. }
  assert (Tot : foldr Rplus 0 (trd_shares t) = face_areas).
  { rewrite C84_face_areas. unfold trd_shares. cbn [foldr]. unfold x_area, y_area, high_area, low_area. change (td_y1 t) with y1. change (td_y2 t) with y2. change (td_x1 t) with x1. change (td_x2 t) with x2. change (td_z t) with dz. field. lra. }
  split; [unfold upto; rewrite <- Up by lia; exact Tot|]. destruct (pick_some (r * face_areas) (trd_shares t) F) as (i & E & L & A & D).
  - rewrite Tot. assert (0 <= face_areas) by (rewrite <- Tot; clear - F; induction F; cbn; lra). nra.
  - done.
  - assert (L12 : (i < 12)%nat) by (rewrite Sh, map_length, seq_length in L; exact L). exists i. split; [unfold choose_surface; rewrite foldl_sum, Rplus_0_l, Tot; exact E|]. split; [done|]. unfold upto. rewrite <- !Up by lia. done.
Qed.
(** A sample is a point of the triangle, each point of the triangle can come; the triangles lie in the faces. *)
Theorem C84_sample r i p : choose_surface t r = Some i → let '(a, b, c) := trd_triangle t i in
  (∃ r1 r2, 0 <= r1 <= 1 ∧ 0 <= r2 <= 1 ∧ trd_sample t r r1 r2 = Some p) ↔ in_triangle a b c p.
Proof using.
  intros E. unfold trd_sample. rewrite E. cbn [mbind option_bind]. destruct (trd_triangle t i) as [[a b] c]. split.
  - intros (r1 & r2 & H1 & H2 & H). assert (K : ∃ s u, 0 <= s ∧ 0 <= u ∧ s + u <= 1 ∧ p = vadd (vadd a (vscale s (vsub b a))) (vscale u (vsub c a))).
    { destruct (rgtb_spec (r1 + r2) 1); injection H as <-; [exists (1 - r1), (1 - r2)|exists r1, r2]; repeat split; lra. }
    destruct K as (s & u & Hs & Hu & Hsu & ->). exists (1 - s - u), s, u. repeat split; try lra. apply v3_eq; cbn; ring.
  - intros (i0 & j & l & Hi & Hj & Hl & Hs & ->). exists j, l. split; [lra|]. split; [lra|]. destruct (rgtb_spec (j + l) 1); [lra|]. f_equal. replace i0 with (1 - j - l) by lra. apply v3_eq; cbn; ring.
Qed.
Theorem C84_sample_face i p : (i < 12)%nat → let '(a, b, c) := trd_triangle t i in in_triangle a b c p → S p ∧ ∃ n e, In (n, e) Q ∧ height n e p = 0.
Proof using Hz Hx1 Hx2 Hy1 Hy2.
  intros Hi. assert (K : let '(a, b, c) := trd_triangle t i in In a B ∧ In b B ∧ In c B ∧ ∃ n e, In (n, e) Q ∧ height n e a = 0 ∧ height n e b = 0 ∧ height n e c = 0).
  { do 12 (destruct i as [|i]; [cbn [trd_triangle]; change (td_y1 t) with y1; change (td_y2 t) with y2; change (td_x1 t) with x1; change (td_x2 t) with x2; change (td_z t) with dz;
      (split; [cbn; auto 10|]); (split; [cbn; auto 10|]); (split; [cbn; auto 10|]); unfold Q, rough, lids, height;
      first [ exists (V3 0 0 (-1)), (- dz); split; [cbn; auto 10|]; cbn [vx vy vz]; (split; [ring|split; ring])
            | exists (V3 0 0 1), (- dz); split; [cbn; auto 10|]; cbn [vx vy vz]; (split; [ring|split; ring])
            | exists (V3 (2 * dz) 0 (- (x2 - x1))), (- (dz * (x1 + x2))); split; [cbn; auto 10|]; cbn [vx vy vz]; (split; [ring|split; ring])
            | exists (V3 (- (2 * dz)) 0 (- (x2 - x1))), (- (dz * (x1 + x2))); split; [cbn; auto 10|]; cbn [vx vy vz]; (split; [ring|split; ring])
            | exists (V3 0 (2 * dz) (- (y2 - y1))), (- (dz * (y1 + y2))); split; [cbn; auto 10|]; cbn [vx vy vz]; (split; [ring|split; ring])
            | exists (V3 0 (- (2 * dz)) (- (y2 - y1))), (- (dz * (y1 + y2))); split; [cbn; auto 10|]; cbn [vx vy vz]; (split; [ring|split; ring]) ]|]). lia. }
  destruct (trd_triangle t i) as [[a b] c]. destruct K as (A & D & G & n & e & Hn & Ha & Hb & Hc). intros (w1 & w2 & w3 & H1 & H2 & H3 & Hs & ->).
  assert (Lin : ∀ m f, height m f (vadd (vadd (vscale w1 a) (vscale w2 b)) (vscale w3 c)) = w1 * height m f a + w2 * height m f b + w3 * height m f c) by (intros m f; unfold height; cbn; replace w1 with (1 - w2 - w3) by lra; ring).
  split; [|exists n, e; split; [done|]; rewrite Lin, Ha, Hb, Hc; ring]. apply S_rough; [done|]. intros m f Hm. unfold under. rewrite Lin. apply corners_in in A, D, G. apply S_rough in A, D, G; try done. specialize (A m f Hm). specialize (D m f Hm). specialize (G m f Hm). unfold under in A, D, G. nra.
Qed.
(** Extent: the smallest box. *)
Theorem C84_extent : let '(lo, hi) := trd_extent t in
  (∀ p, S p → (vx lo <= vx p <= vx hi) ∧ (vy lo <= vy p <= vy hi) ∧ vz lo <= vz p <= vz hi) ∧
  (∃ p, S p ∧ vx p = vx lo) ∧ (∃ p, S p ∧ vx p = vx hi) ∧ (∃ p, S p ∧ vy p = vy lo) ∧ (∃ p, S p ∧ vy p = vy hi) ∧ (∃ p, S p ∧ vz p = vz lo) ∧ (∃ p, S p ∧ vz p = vz hi).
Proof using Hz Hx1 Hx2 Hy1 Hy2.
  unfold trd_extent. change (td_y1 t) with y1. change (td_y2 t) with y2. change (td_x1 t) with x1. change (td_x2 t) with x2. change (td_z t) with dz. cbn [vx vy vz].
  assert (W : ∀ a b z, - dz <= z <= dz → width dz a b z <= Rmax a b).
  { intros a b z H. unfold width. apply div_le; [lra|]. pose proof (Rmax_l a b). pose proof (Rmax_r a b). assert ((dz - z) * a <= (dz - z) * Rmax a b) by (apply Rmult_le_compat_l; lra). assert ((dz + z) * b <= (dz + z) * Rmax a b) by (apply Rmult_le_compat_l; lra). lra. }
  split. { intros p (A & D & G). apply abs_two in A, D, G. pose proof (W x1 x2 (vz p) ltac:(lra)). pose proof (W y1 y2 (vz p) ltac:(lra)). lra. }
  assert (M : ∀ a b : R, Rmax a b = a ∨ Rmax a b = b) by (intros a b; unfold Rmax; destruct (Rle_dec a b); auto).
  assert (In8 : ∀ sx sy h, (sx = 1 ∨ sx = -1) → (sy = 1 ∨ sy = -1) → S (V3 (sx * if h : bool then x2 else x1) (sy * if h then y2 else y1) (if h then dz else - dz))).
  { intros sx sy h Hsx Hsy. apply corners_in. destruct h, Hsx as [-> | ->], Hsy as [-> | ->]; rewrite ?Rmult_1_l; replace (-1 * x1) with (- x1) by ring; replace (-1 * x2) with (- x2) by ring; replace (-1 * y1) with (- y1) by ring; replace (-1 * y2) with (- y2) by ring; cbn; auto 10. }
  assert (N : ∀ r, -1 * r = - r) by (intros; ring).
  split; [|split; [|split; [|split; [|split]]]].
  - destruct (M x1 x2) as [E|E]; rewrite E; eexists; (split; [apply (In8 (-1) 1); auto|]); cbn [vx]; rewrite N; [instantiate (1 := false)|instantiate (1 := true)]; reflexivity.
  - destruct (M x1 x2) as [E|E]; rewrite E; eexists; (split; [apply (In8 1 1); auto|]); cbn [vx]; rewrite Rmult_1_l; [instantiate (1 := false)|instantiate (1 := true)]; reflexivity.
  - destruct (M y1 y2) as [E|E]; rewrite E; eexists; (split; [apply (In8 1 (-1)); auto|]); cbn [vy]; rewrite N; [instantiate (1 := false)|instantiate (1 := true)]; reflexivity.
  - destruct (M y1 y2) as [E|E]; rewrite E; eexists; (split; [apply (In8 1 1); auto|]); cbn [vy]; rewrite Rmult_1_l; [instantiate (1 := false)|instantiate (1 := true)]; reflexivity.
  - eexists. split; [apply (In8 1 1 false); auto|done].
  - eexists. split; [apply (In8 1 1 true); auto|done].
Qed.
(** The mesh: the eight corners; each polygon is a face, its vertices run counterclockwise seen from outside. *)
Theorem C84_mesh : 0 < x1 → 0 < x2 → 0 < y1 → 0 < y2 → let '(vs, polys) := trd_mesh t in
  (∀ v, In v vs ↔ In v B) ∧ length polys = 6%nat ∧ (∀ n e, In (n, e) Q → ∃ i j l m a b c h, In [i; j; l; m] polys ∧ vs !! i = Some a ∧ vs !! j = Some b ∧ vs !! l = Some c ∧ vs !! m = Some h ∧ NoDup [i; j; l; m] ∧
    height n e a = 0 ∧ height n e b = 0 ∧ height n e c = 0 ∧ height n e h = 0 ∧ 0 < vdot n (vcross (vsub b a) (vsub c a)) ∧ 0 < vdot n (vcross (vsub c a) (vsub h a))).
Proof using Hz.
  intros P1 P2 P3 P4. unfold trd_mesh. change (td_y1 t) with y1. change (td_y2 t) with y2. change (td_x1 t) with x1. change (td_x2 t) with x2. change (td_z t) with dz. cbv zeta.
  split; [intros v; cbn; tauto|]. split; [done|]. intros n e Hi. cbn in Hi.
  assert (Px : 0 < dz * dz) by nra. pose proof (Rle_0_sqr (x1 - x2)) as Sx. pose proof (Rle_0_sqr (y1 - y2)) as Sy. unfold Rsqr in Sx, Sy.
  assert (PY : ∀ a d, 0 < a → 0 <= d → 0 < a * (8 * (dz * dz) + 2 * d)) by (intros a d Ha Hd; apply Rmult_lt_0_compat; lra).
  pose proof (PY y1 _ P3 Sx). pose proof (PY y2 _ P4 Sx). pose proof (PY x1 _ P1 Sy). pose proof (PY x2 _ P2 Sy). assert (0 < x1 * y1) by nra. assert (0 < x2 * y2) by nra.
  assert (ND : ∀ l : list nat, bool_decide (NoDup l) = true → NoDup l) by (intros l Hl; by apply bool_decide_eq_true in Hl).
  destruct Hi as [E|[E|[E|[E|[E|[E|[]]]]]]]; injection E as <- <-;
  [exists 2%nat, 6%nat, 7%nat, 3%nat|exists 0%nat, 4%nat, 5%nat, 1%nat|exists 1%nat, 5%nat, 6%nat, 2%nat|exists 3%nat, 7%nat, 4%nat, 0%nat|exists 4%nat, 7%nat, 6%nat, 5%nat|exists 0%nat, 1%nat, 2%nat, 3%nat];
  do 4 eexists; (split; [cbn; auto 10|]); do 4 (split; [reflexivity|]); (split; [apply ND; reflexivity|]); unfold height, vdot, vcross, vsub; cbn [vx vy vz]; repeat split; try ring; nra.
Qed.
End Trd.
Print Assumptions C84_hull.
Print Assumptions C84_trapezoid.
Print Assumptions C84_capacity.
Print Assumptions C84_shares.
Print Assumptions C84_face_areas.
Print Assumptions C84_area.
Print Assumptions C84_choose.
Print Assumptions C84_sample.
Print Assumptions C84_sample_face.
Print Assumptions C84_extent.
Print Assumptions C84_mesh.
(** Not vacuous: a frustum; its capacity; the area of SurfaceArea is not that of the faces. *)
Example trd_measures : let t := trd_struct 3 1 1 1 1 in trd_capacity t = 16 ∧ trd_area t ≠ face_areas 3 1 1 1 1 ∧ hull (box_corners 3 1 1 1 1) (V3 2 1 0) ∧
  ∃ i, choose_surface t (1 / 2) = Some i ∧ (i < 12)%nat.
Proof.
  cbv zeta. split; [unfold trd_capacity; cbn; lra|]. split; [|split].
  - rewrite C84_area by lra. replace (3 - 1) with 2 by lra. replace (1 - 1) with 0 by lra. rewrite Rabs_R0, Rabs_pos_eq by lra. lra.
  - apply C84_hull; try lra. unfold frustum, width. cbn [vx vy vz]. rewrite Rabs_R0, !Rabs_pos_eq by lra. lra.
  - destruct (C84_choose 3 1 1 1 1 ltac:(lra) ltac:(lra) ltac:(lra) ltac:(lra) ltac:(lra) (1 / 2)) as (_ & i & E & L & _); try lra. eauto.
Qed.
