From Coq Require Import Reals Lra Lia Bool Psatz.
From stdpp Require Import base list option numbers tactics.
From Verif Require Import Real3 BoxModel AABBModel PlanesModel PlanesSpec PlanesProofs TrapModel TrapSpec.
Import stdpp.list.
Local Open Scope R_scope.

(** Hulls. *)
Lemma mix_below vs ws n : length ws = length vs → Forall (Rle 0) ws → ∀ m, (∀ v, In v vs → vdot v n <= m) →
  vdot (mix ws vs) n <= foldr Rplus 0 ws * m.
Proof.
  intros L F m H. revert vs L H. induction F as [|w ws Hw F IH]; intros [|v vs] L H; try discriminate.
  - cbn. unfold vdot, vzero. cbn. lra.
  - cbn in L. specialize (IH vs ltac:(lia) (λ u Hu, H u (or_intror Hu))). specialize (H v (or_introl eq_refl)).
    cbn [mix zip_with foldr]. fold (mix ws vs). unfold vdot in *. cbn [vx vy vz vadd vscale] in *.
    pose proof (Rmult_le_compat_l w _ _ Hw H). lra.
Qed.
Lemma hull_below vs p n m : hull vs p → (∀ v, In v vs → vdot v n <= m) → vdot p n <= m.
Proof. intros (ws & L & F & S & ->) H. pose proof (mix_below vs ws n L F m H) as K. rewrite S in K. lra. Qed.

(** The plane of a face with known direction. *)
Lemma unitize_scale m v : 0 < m → unitize (vscale m v) = unitize v.
Proof.
  intros Hm. unfold unitize. assert (E : vmag (vscale m v) = m * vmag v).
  { unfold vmag, vdot. cbn [vx vy vz vscale]. replace (m * vx v * (m * vx v) + m * vy v * (m * vy v) + m * vz v * (m * vz v)) with
      ((m * m) * (vx v * vx v + vy v * vy v + vz v * vz v)) by ring. rewrite sqrt_mult_alt by nra. rewrite sqrt_square by lra. done. }
  rewrite E. destruct (Req_dec (vmag v) 0) as [Z|Z].
  - rewrite Z, Rmult_0_r. unfold vscale. cbn. unfold Rdiv. rewrite Rinv_0.
    assert (vdot v v = 0) as V. { rewrite <- vmag_sqr, Z. ring. } unfold vdot in V.
    assert (vx v = 0 ∧ vy v = 0 ∧ vz v = 0) as (-> & -> & ->). { repeat split; nra. } f_equal; ring.
  - unfold vscale. cbn [vx vy vz]. apply v3_eq; cbn [vx vy vz]; field; lra.
Qed.
Lemma face_plane_at p1 p2 p3 p4 m v e : vcross (vsub p3 p1) (vsub p4 p2) = vscale m v → 0 < m →
  vdot v p1 = e → vdot v p2 = e → vdot v p3 = e → vdot v p4 = e →
  face_plane p1 p2 p3 p4 = Plane (unitize v) (- (e / vmag v)).
Proof.
  intros E Hm E1 E2 E3 E4. unfold face_plane. rewrite E, unitize_scale by done. f_equal. f_equal. unfold unitize.
  unfold vdot in *. cbn [vx vy vz vadd vscale]. unfold Rdiv.
  transitivity (/ vmag v * (/ 4 * ((vx v * vx p1 + vy v * vy p1 + vz v * vz p1) + (vx v * vx p2 + vy v * vy p2 + vz v * vz p2) +
    (vx v * vx p3 + vy v * vy p3 + vz v * vz p3) + (vx v * vx p4 + vy v * vy p4 + vz v * vz p4)))); [ring|]. rewrite E1, E2, E3, E4. lra.
Qed.
Lemma unitize_unit v : 0 < vdot v v → vdot (unitize v) (unitize v) = 1.
Proof.
  intros H. unfold unitize. unfold vdot at 1. cbn [vx vy vz vscale].
  transitivity ((1 / vmag v) * (1 / vmag v) * vdot v v); [unfold vdot; ring|]. rewrite <- (vmag_sqr v). assert (vmag v ≠ 0).
  { intros Z. pose proof (vmag_sqr v) as K. rewrite Z in K. lra. } field. done.
Qed.
Lemma vmag_pos v : 0 < vdot v v → 0 < vmag v.
Proof. intros. unfold vmag. by apply sqrt_lt_R0. Qed.
Lemma dist_at v e p : pl_dist (Plane (unitize v) (- (e / vmag v))) p = (vdot v p - e) / vmag v.
Proof. unfold pl_dist, unitize. cbn [pl_n pl_d]. unfold vdot. cbn [vx vy vz vscale]. unfold Rdiv. ring. Qed.

Section Trap.
Variables (dz tc ts dy1 dx1 dx2 ta1 dy2 dx3 dx4 ta2 : R).
Hypothesis P : proper dz tc ts dy1 dx1 dx2 ta1 dy2 dx3 dx4 ta2.
Let E := eight dz tc ts dy1 dx1 dx2 ta1 dy2 dx3 dx4 ta2.
Let k := (dx2 - dx1) / (2 * dy1).
(** Flat side faces: one slope of the middle lines, one spread of the sides. *)
Lemma flat : ta2 = ta1 ∧ dx2 = dx1 + 2 * k * dy1 ∧ dx4 = dx3 + 2 * k * dy2.
Proof using P.
  destruct P as (Hz & Hy1 & Hy2 & _ & _ & _ & _ & _ & _ & F1 & F2). unfold coplanar, triple, low_corner, high_corner, vcross, vsub, vdot in F1, F2.
  cbn [vx vy vz] in F1, F2.
  assert (A1 : dz * ((2 * ta1 * dy1 - dx2 + dx1) * dy2 - (2 * ta2 * dy2 - dx4 + dx3) * dy1) = 0)  by (clear - F1; lra).
  assert (A2 : dz * ((2 * ta1 * dy1 + dx2 - dx1) * dy2 - (2 * ta2 * dy2 + dx4 - dx3) * dy1) = 0)  by (clear - F2; lra).
  apply Rmult_integral in A1 as [A1|A1]; [lra|]. apply Rmult_integral in A2 as [A2|A2]; [lra|].
  assert (B1 : (dy1 * dy2) * (ta2 - ta1) = 0) by lra. assert (B2 : (dx2 - dx1) * dy2 = (dx4 - dx3) * dy1) by lra.
  assert (0 < dy1 * dy2) by nra. apply Rmult_integral in B1 as [B1|B1]; [lra|]. split; [lra|].
  unfold k. split; [field; lra|]. apply (Rmult_eq_reg_r dy1); [|lra].
  transitivity (dx3 * dy1 + (dx2 - dx1) * dy2); [lra|]. field. lra.
Qed.
(** The section at height [z]: half length in y, and half length in x at its middle. *)
Let Dy z := (dy1 + dy2) / 2 + (dy2 - dy1) / (2 * dz) * z.
Let Mx z := (dx1 + dx2 + dx3 + dx4) / 4 + (dx3 + dx4 - dx1 - dx2) / (4 * dz) * z.
Let eta (p : v3) := vy p - ts * vz p.
Let xi (p : v3) := vx p - tc * vz p - ta1 * eta p.
Definition sect (p : v3) : Prop := Rabs (vz p) <= dz ∧ Rabs (eta p) <= Dy (vz p) ∧ Rabs (xi p) <= Mx (vz p) + k * eta p.
Let v0 := V3 0 (-1) (ts - (dy2 - dy1) / (2 * dz)).
Let v1 := V3 0 1 (- (ts + (dy2 - dy1) / (2 * dz))).
Let v2 := V3 (-1) (ta1 - k) (tc - (dx3 + dx4 - dx1 - dx2) / (4 * dz) - (ta1 - k) * ts).
Let v3' := V3 1 (- (ta1 + k)) (- tc - (dx3 + dx4 - dx1 - dx2) / (4 * dz) + (ta1 + k) * ts).
Let eY := (dy1 + dy2) / 2.
Let eX := (dx1 + dx2 + dx3 + dx4) / 4.
Let side v e := Plane (unitize v) (- (e / vmag v)).
Definition side_planes : list plane := [side v0 eY; side v1 eY; side v2 eX; side v3' eX].
Lemma v0_dot p : vdot v0 p - eY = - eta p - Dy (vz p).
Proof using. unfold v0, eY, eta, Dy, vdot. cbn [vx vy vz]. unfold Rdiv. ring. Qed.
Lemma v1_dot p : vdot v1 p - eY = eta p - Dy (vz p).
Proof using. unfold v1, eY, eta, Dy, vdot. cbn [vx vy vz]. unfold Rdiv. ring. Qed.
Lemma v2_dot p : vdot v2 p - eX = - xi p - (Mx (vz p) + k * eta p).
Proof using. unfold v2, eX, eta, xi, eta, Mx, vdot. cbn [vx vy vz]. unfold Rdiv. ring. Qed.
Lemma v3_dot p : vdot v3' p - eX = xi p - (Mx (vz p) + k * eta p).
Proof using. unfold v3', eX, eta, xi, eta, Mx, vdot. cbn [vx vy vz]. unfold Rdiv. ring. Qed.
Lemma v_pos : 0 < vdot v0 v0 ∧ 0 < vdot v1 v1 ∧ 0 < vdot v2 v2 ∧ 0 < vdot v3' v3'.
Proof using. repeat split; unfold vdot, v0, v1, v2, v3'; cbn [vx vy vz]; match goal with |- 0 < ?a * ?a + ?b * ?b + ?c * ?c => pose proof (Rle_0_sqr a); pose proof (Rle_0_sqr b); pose proof (Rle_0_sqr c); unfold Rsqr in *; lra end. Qed.
(** The planes that the constructors make. *)
Lemma planes_made th ph pls ars : let t := Trap dz th ph dy1 dx1 dx2 ta1 dy2 dx3 dx4 ta2 tc ts pls ars in tz_planes (make_planes t) = side_planes.
Proof using P.
  destruct flat as (Ea & E2 & E4). destruct P as (Hz & Hy1 & Hy2 & Hx1 & Hx2 & Hx3 & Hx4 & H13 & H24 & _ & _). intros t.
  unfold make_planes, make_planes_at. cbn [fst tz_planes]. unfold side_planes, side.
  assert (Hm : 0 < 4 * dz * (dx1 + dx3)) by nra. assert (Hm' : 0 < 4 * dz * (dx2 + dx4)) by nra. assert (Hn : 0 < 4 * dz * (dy1 + dy2)) by nra.
  f_equal; [|f_equal; [|f_equal; [|f_equal]]].
  - apply (face_plane_at _ _ _ _ (4 * dz * (dx1 + dx3))); [|done| | | |];
      unfold t, to_corners, v0, vcross, vsub, vscale, vdot, eY; cbn [c0 c1 c4 c5 vx vy vz tz_dz tz_dy1 tz_dx1 tz_dx2 tz_ta1 tz_dy2 tz_dx3 tz_dx4 tz_ta2 tz_tc tz_ts].
    + f_equal; field; lra.
    + field; lra.
    + field; lra.
    + field; lra.
    + field; lra.
  - apply (face_plane_at _ _ _ _ (4 * dz * (dx2 + dx4))); [|done| | | |];
      unfold t, to_corners, v1, vcross, vsub, vscale, vdot, eY; cbn [c2 c3 c6 c7 vx vy vz tz_dz tz_dy1 tz_dx1 tz_dx2 tz_ta1 tz_dy2 tz_dx3 tz_dx4 tz_ta2 tz_tc tz_ts].
    + f_equal; field; lra.
    + field; lra.
    + field; lra.
    + field; lra.
    + field; lra.
  -
    apply (face_plane_at _ _ _ _ (4 * dz * (dy1 + dy2))); [|done| | | |];
      unfold t, to_corners, v2, vcross, vsub, vscale, vdot, eX; cbn [c0 c2 c4 c6 vx vy vz tz_dz tz_dy1 tz_dx1 tz_dx2 tz_ta1 tz_dy2 tz_dx3 tz_dx4 tz_ta2 tz_tc tz_ts];
      rewrite ?Ea, ?E4, ?E2.
    + f_equal; field; lra.
    + field; lra.
    + field; lra.
    + field; lra.
    + field; lra.
  - apply (face_plane_at _ _ _ _ (4 * dz * (dy1 + dy2))); [|done| | | |];
      unfold t, to_corners, v3', vcross, vsub, vscale, vdot, eX; cbn [c1 c3 c5 c7 vx vy vz tz_dz tz_dy1 tz_dx1 tz_dx2 tz_ta1 tz_dy2 tz_dx3 tz_dx4 tz_ta2 tz_tc tz_ts];
      rewrite ?Ea, ?E4, ?E2.
    + f_equal; field; lra.
    + field; lra.
    + field; lra.
    + field; lra.
    + field; lra.
Qed.
Definition z_planes : list plane := [Plane (V3 0 0 1) (- dz); Plane (V3 0 0 (-1)) (- dz)].
Definition six : list plane := side_planes ++ z_planes.
Lemma side_dist v e p : 0 < vdot v v → (pl_dist (side v e) p <= 0 ↔ vdot v p - e <= 0).
Proof using.
  intros H. unfold side. rewrite dist_at. apply vmag_pos in H. split; intros K.
  - destruct (Rle_dec (vdot v p - e) 0) as [|N]; [done|]. assert (0 < (vdot v p - e) / vmag v) by (apply Rdiv_lt_0_compat; lra). lra.
  - unfold Rdiv. pose proof (Rinv_0_lt_compat _ H). nra.
Qed.
Lemma cut_sides p : cut (halves side_planes) p ↔ Rabs (eta p) <= Dy (vz p) ∧ Rabs (xi p) <= Mx (vz p) + k * eta p.
Proof using.
  destruct v_pos as (A0 & A1 & A2 & A3). rewrite cut_iff. unfold side_planes. split.
  - intros H. assert (K0 := H _ (or_introl eq_refl)). assert (K1 := H _ (or_intror (or_introl eq_refl))).
    assert (K2 := H _ (or_intror (or_intror (or_introl eq_refl)))). assert (K3 := H _ (or_intror (or_intror (or_intror (or_introl eq_refl))))).
    apply (proj1 (side_dist v0 eY p A0)) in K0. apply (proj1 (side_dist v1 eY p A1)) in K1.
    apply (proj1 (side_dist v2 eX p A2)) in K2. apply (proj1 (side_dist v3' eX p A3)) in K3.
    rewrite (v0_dot p) in K0. rewrite (v1_dot p) in K1. rewrite (v2_dot p) in K2. rewrite (v3_dot p) in K3.
    split; apply Rabs_le; lra.
  - intros [H1 H2]. apply abs_le_inv in H1, H2. intros pl [<-|[<-|[<-|[<-|[]]]]].
    + apply (proj2 (side_dist v0 eY p A0)). rewrite (v0_dot p). lra.
    + apply (proj2 (side_dist v1 eY p A1)). rewrite (v1_dot p). lra.
    + apply (proj2 (side_dist v2 eX p A2)). rewrite (v2_dot p). lra.
    + apply (proj2 (side_dist v3' eX p A3)). rewrite (v3_dot p). lra.
Qed.
Lemma cut_z p : cut (halves z_planes) p ↔ Rabs (vz p) <= dz.
Proof using.
  rewrite cut_iff. unfold z_planes. split.
  - intros H. assert (K0 := H _ (or_introl eq_refl)). assert (K1 := H _ (or_intror (or_introl eq_refl))). unfold pl_dist, vdot in K0, K1. cbn in K0, K1.
    apply Rabs_le. lra.
  - intros H. apply abs_le_inv in H. intros pl [<-|[<-|[]]]; unfold pl_dist, vdot; cbn; lra.
Qed.
Lemma cut_app l l' p : cut (halves (l ++ l')) p ↔ cut (halves l) p ∧ cut (halves l') p.
Proof using. rewrite !cut_iff. split; [intros H; split; intros; apply H, in_or_app; auto|intros [H H'] pl Hi; apply in_app_or in Hi as [?|?]; auto]. Qed.
Lemma six_sect p : cut (halves six) p ↔ sect p.
Proof using. unfold six. rewrite cut_app, cut_sides, cut_z. unfold sect. tauto. Qed.
Lemma six_unit : unit_normals (halves six).
Proof using.
  destruct v_pos as (A0 & A1 & A2 & A3). rewrite unit_iff. unfold six, side_planes, z_planes, side.
  intros pl [<-|[<-|[<-|[<-|[<-|[<-|[]]]]]]]; cbn [pl_n]; try (by apply unitize_unit); unfold vdot; cbn; lra.
Qed.
Lemma Dy_pos z : Rabs z <= dz → 0 < Dy z.
Proof using P.
  destruct P as (Hz & Hy1 & Hy2 & _). intros H. apply abs_le_inv in H. unfold Dy.
  replace ((dy1 + dy2) / 2 + (dy2 - dy1) / (2 * dz) * z) with (/ (2 * dz) * (dy1 * (dz - z) + dy2 * (dz + z))) by (field; lra).
  apply Rmult_lt_0_compat; [apply Rinv_0_lt_compat; lra|]. destruct (Rle_dec z 0); nra.
Qed.
(** Every corner is in the solid, so is the hull. *)
Lemma corners_sect v : In v E → sect v.
Proof using P.
  destruct flat as (Ea & E2 & E4). assert (Hd : 0 < dz ∧ 0 < dy1 ∧ 0 < dy2 ∧ 0 <= dx1 ∧ 0 <= dx2 ∧ 0 <= dx3 ∧ 0 <= dx4) by (unfold proper in P; tauto).
  destruct Hd as (Hz & Hy1 & Hy2 & Hx1 & Hx2 & Hx3 & Hx4). unfold E, eight. 
  assert (G : ∀ v y x a b, vz v = - dz → eta v = y → xi v = x → a = dy1 → b = Mx (- dz) + k * y → Rabs y <= a → Rabs x <= b → sect v).
  { intros w y x a b Ez Ey Ex -> -> Hy Hx. unfold sect. rewrite Ez, Ey, Ex. split; [rewrite Rabs_Ropp, Rabs_pos_eq; lra|]. split; [|done].
    unfold Dy. replace ((dy1 + dy2) / 2 + (dy2 - dy1) / (2 * dz) * - dz) with dy1 by (field; lra). done. }
  assert (G' : ∀ v y x a b, vz v = dz → eta v = y → xi v = x → a = dy2 → b = Mx dz + k * y → Rabs y <= a → Rabs x <= b → sect v).
  { intros w y x a b Ez Ey Ex -> -> Hy Hx. unfold sect. rewrite Ez, Ey, Ex. split; [rewrite Rabs_pos_eq; lra|]. split; [|done].
    unfold Dy. replace ((dy1 + dy2) / 2 + (dy2 - dy1) / (2 * dz) * dz) with dy2 by (field; lra). done. }
  assert (M1 : Mx (- dz) = (dx1 + dx2) / 2) by (unfold Mx; field; lra). assert (M2 : Mx dz = (dx3 + dx4) / 2) by (unfold Mx; field; lra).
  intros [<-|[<-|[<-|[<-|[<-|[<-|[<-|[<-|[]]]]]]]]].
  - apply (G _ (- dy1) (- dx1) dy1 dx1); unfold low_corner, eta, xi, eta; cbn [vx vy vz]; try ring; [rewrite M1; lra|rewrite Rabs_Ropp, Rabs_pos_eq; lra..].
  - apply (G _ (- dy1) dx1 dy1 dx1); unfold low_corner, eta, xi, eta; cbn [vx vy vz]; try ring; [rewrite M1; lra|rewrite Rabs_Ropp, Rabs_pos_eq; lra|rewrite Rabs_pos_eq; lra].
  - apply (G _ dy1 (- dx2) dy1 dx2); unfold low_corner, eta, xi, eta; cbn [vx vy vz]; try ring; [rewrite M1; lra|rewrite Rabs_pos_eq; lra|rewrite Rabs_Ropp, Rabs_pos_eq; lra].
  - apply (G _ dy1 dx2 dy1 dx2); unfold low_corner, eta, xi, eta; cbn [vx vy vz]; try ring; [rewrite M1; lra|rewrite Rabs_pos_eq; lra..].
  - apply (G' _ (- dy2) (- dx3) dy2 dx3); unfold high_corner, eta, xi, eta; cbn [vx vy vz]; rewrite ?Ea; try ring; [rewrite M2; lra|rewrite Rabs_Ropp, Rabs_pos_eq; lra..].
  - apply (G' _ (- dy2) dx3 dy2 dx3); unfold high_corner, eta, xi, eta; cbn [vx vy vz]; rewrite ?Ea; try ring; [rewrite M2; lra|rewrite Rabs_Ropp, Rabs_pos_eq; lra|rewrite Rabs_pos_eq; lra].
  - apply (G' _ dy2 (- dx4) dy2 dx4); unfold high_corner, eta, xi, eta; cbn [vx vy vz]; rewrite ?Ea; try ring; [rewrite M2; lra|rewrite Rabs_pos_eq; lra|rewrite Rabs_Ropp, Rabs_pos_eq; lra].
  - apply (G' _ dy2 dx4 dy2 dx4); unfold high_corner, eta, xi, eta; cbn [vx vy vz]; rewrite ?Ea; try ring; [rewrite M2; lra|rewrite Rabs_pos_eq; lra..].
Qed.
Lemma hull_sect p : hull E p → sect p.
Proof using P.
  intros H. apply six_sect. apply cut_iff. intros pl Hi. unfold pl_dist.
  assert (vdot p (pl_n pl) <= - pl_d pl); [|lra]. apply (hull_below E p); [done|]. intros v Hv. apply corners_sect, six_sect in Hv.
  rewrite cut_iff in Hv. specialize (Hv _ Hi). unfold pl_dist in Hv. lra.
Qed.
Lemma sect_hull p : sect p → hull E p.
Proof using P.
  destruct flat as (Ea & E2 & E4). destruct P as (Hz & Hy1 & Hy2 & _). intros (Sz & Sy & Sx). pose proof (Dy_pos _ Sz) as Hd.
  apply abs_le_inv in Sz, Sy, Sx. set (W := Mx (vz p) + k * eta p) in *.
  set (u := (vz p + dz) / (2 * dz)). assert (Eu : vz p = (2 * u - 1) * dz) by (unfold u; field; lra).
  assert (Hu : 0 <= u <= 1) by (split; nra).
  set (s := (eta p + Dy (vz p)) / (2 * Dy (vz p))). assert (Es : eta p = (2 * s - 1) * Dy (vz p)) by (unfold s; field; lra).
  assert (Hs : 0 <= s <= 1) by (split; nra).
  assert (∃ r, 0 <= r <= 1 ∧ xi p = (2 * r - 1) * W) as (r & Hr & Er).
  { destruct (Req_dec W 0) as [Z|Z]; [exists 0; rewrite Z in *; lra|]. exists ((xi p + W) / (2 * W)). assert (Ex : xi p = (2 * ((xi p + W) / (2 * W)) - 1) * W) by (field; lra).
    set (r := (xi p + W) / (2 * W)) in *. split; [|done]. assert (0 < W) by lra. split; nra. }
  assert (EW : Dy (vz p) = (1 - u) * dy1 + u * dy2) by (rewrite Eu; unfold Dy; field; lra).
  assert (EM : Mx (vz p) = (1 - u) * ((dx1 + dx2) / 2) + u * ((dx3 + dx4) / 2)) by (rewrite Eu; unfold Mx; field; lra).
  clearbody u s. unfold W in Er. clear W Sz Sy Sx. rewrite EW in Es. rewrite EM, Es in Er.
  exists [(1-u)*(1-s)*(1-r); (1-u)*(1-s)*r; (1-u)*s*(1-r); (1-u)*s*r; u*(1-s)*(1-r); u*(1-s)*r; u*s*(1-r); u*s*r].
  split; [done|]. split; [|split].
  - repeat (apply Forall_cons; split; [repeat apply Rmult_le_pos; lra|]). by apply Forall_nil.
  - cbn. ring.
  - unfold E, eight, mix. cbn [zip_with foldr]. unfold low_corner, high_corner.
    assert (Ey : vy p = eta p + ts * vz p) by (unfold eta; ring). assert (Ex : vx p = xi p + tc * vz p + ta1 * eta p) by (unfold xi; ring).
    clearbody k. apply v3_eq; cbn [vx vy vz vadd vscale vzero]; rewrite ?Ey, ?Ex, ?Er, ?Es, ?Eu, ?Ea, ?E4, ?E2; field.
Qed.
Lemma walls_eq : halves six = walls dz tc ts dy1 dx1 dx2 ta1 dy2 dx3 dx4 ++ lids dz ∧ halves side_planes = walls dz tc ts dy1 dx1 dx2 ta1 dy2 dx3 dx4.
Proof using. done. Qed.
Lemma six_nodup : NoDup side_planes.
Proof using.
  destruct v_pos as (A0 & A1 & A2 & A3). apply vmag_pos in A0, A1, A2, A3. set (f := λ pl, (vx (pl_n pl), vy (pl_n pl))).
  assert (B : ∀ v e, f (side v e) = (1 / vmag v * vx v, 1 / vmag v * vy v)) by done.
  assert (I : ∀ x, 0 < x → 0 < 1 / x) by (intros; apply Rdiv_lt_0_compat; lra). apply I in A0, A1, A2, A3.
  assert (F0 : f (side v0 eY) = (0, - (1 / vmag v0))) by (rewrite B; unfold v0 at 2 4; cbn [vx vy]; f_equal; ring).
  assert (F1 : f (side v1 eY) = (0, 1 / vmag v1)) by (rewrite B; unfold v1 at 2 4; cbn [vx vy]; f_equal; ring).
  assert (F2 : fst (f (side v2 eX)) = - (1 / vmag v2)) by (rewrite B; unfold v2 at 2; cbn [fst vx]; ring).
  assert (F3 : fst (f (side v3' eX)) = 1 / vmag v3') by (rewrite B; unfold v3' at 2; cbn [fst vx]; ring).
  unfold side_planes. repeat apply NoDup_cons_2; try apply NoDup_nil_2; rewrite ?elem_of_cons, ?elem_of_nil; intros Hx; destruct_or?; try done;
    match goal with H : side _ _ = side _ _ |- _ => apply (f_equal f) in H; rewrite ?F0, ?F1 in H; try (injection H; lra); apply (f_equal fst) in H; rewrite ?F2, ?F3 in H; cbn [fst] in H; lra end.
Qed.
Lemma solid_iff p : hull E p ↔ cut (halves six) p.
Proof using P. rewrite six_sect. split; [apply hull_sect|apply sect_hull]. Qed.
End Trap.
