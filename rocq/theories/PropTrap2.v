(** C82, second part: constructors, corners, setters, capacity and extent of trapezoids. *)
From Coq Require Import Reals Lra Lia Bool Psatz.
From stdpp Require Import base list option numbers tactics.
From Verif Require Import Real3 BoxModel AABBModel PlanesModel PlanesSpec PlanesProofs TrapModel TrapSpec TrapProofs TrapProofs2 PropTrap.
Import stdpp.list.
Local Open Scope R_scope.

(** The general constructor: the solid of its parameters. *)
Theorem C82_make dz theta phi dy1 dx1 dx2 a1 dy2 dx3 dx4 a2 p :
  let tc := tan theta * cos phi in let ts := tan theta * sin phi in
  proper dz tc ts dy1 dx1 dx2 (tan a1) dy2 dx3 dx4 (tan a2) →
  trap_contains (mk_trap dz theta phi dy1 dx1 dx2 a1 dy2 dx3 dx4 a2) p = true ↔ hull (eight dz tc ts dy1 dx1 dx2 (tan a1) dy2 dx3 dx4 (tan a2)) p.
Proof. intros tc ts P. unfold mk_trap, trap_struct. by apply (C82_contains _ _ _ _ _ _ _ _ _ _ _ _ _ _ _ P). Qed.
Ltac flatten := unfold coplanar, triple, low_corner, high_corner, vdot, vcross, vsub; cbn [vx vy vz]; ring.
(** Trapezoids like a Trd. *)
Theorem C82_make_trd2 dx1 dx2 dy1 dy2 dz p : 0 < dz → 0 < dy1 → 0 < dy2 → 0 <= dx1 → 0 <= dx2 → 0 < dx1 + dx2 →
  trap_contains (mk_trap_trd2 dx1 dx2 dy1 dy2 dz) p = true ↔
  Rabs (vz p) <= dz ∧ 2 * dz * Rabs (vy p) <= dy1 * (dz - vz p) + dy2 * (dz + vz p) ∧ 2 * dz * Rabs (vx p) <= dx1 * (dz - vz p) + dx2 * (dz + vz p).
Proof.
  intros Hz H1 H2 H3 H4 H5. assert (P : proper dz 0 0 dy1 dx1 dx1 0 dy2 dx2 dx2 0) by (unfold proper; repeat split; try lra; flatten).
  assert (E : mk_trap_trd2 dx1 dx2 dy1 dy2 dz = make_planes (Trap dz 0 0 dy1 dx1 dx1 0 dy2 dx2 dx2 0 0 0 zero_planes [])).
  { unfold mk_trap_trd2, mk_trap, trap_struct. rewrite tan_0, !Rmult_0_l. done. }
  rewrite E, (C82_contains _ _ _ _ _ _ _ _ _ _ _ _ _ _ _ P). 
  assert (S : hull (eight dz 0 0 dy1 dx1 dx1 0 dy2 dx2 dx2 0) p ↔ sect dz 0 0 dy1 dx1 dx1 0 dy2 dx2 dx2 p) by (split; [by apply hull_sect|by apply sect_hull]).
  rewrite S. unfold sect. replace (vy p - 0 * vz p) with (vy p) by ring. replace (vx p - 0 * vz p - 0 * vy p) with (vx p) by ring.
  replace ((dy1 + dy2) / 2 + (dy2 - dy1) / (2 * dz) * vz p) with ((dy1 * (dz - vz p) + dy2 * (dz + vz p)) / (2 * dz)) by (field; lra).
  replace ((dx1 + dx1 + dx2 + dx2) / 4 + (dx2 + dx2 - dx1 - dx1) / (4 * dz) * vz p + (dx1 - dx1) / (2 * dy1) * vy p) with ((dx1 * (dz - vz p) + dx2 * (dz + vz p)) / (2 * dz)) by (field; lra).
  assert (G : ∀ a b, a <= b / (2 * dz) ↔ 2 * dz * a <= b).
  { intros a b. split; intros H. { apply (Rmult_le_compat_l (2 * dz)) in H; [|lra]. replace (2 * dz * (b / (2 * dz))) with b in H by (field; lra). done. }
    apply (Rmult_le_reg_l (2 * dz)); [lra|]. replace (2 * dz * (b / (2 * dz))) with b by (field; lra). done. }
  rewrite !G. done.
Qed.
Theorem C82_make_trd1 dx1 dx2 dy dz p : 0 < dz → 0 < dy → 0 <= dx1 → 0 <= dx2 → 0 < dx1 + dx2 →
  trap_contains (mk_trap_trd1 dx1 dx2 dy dz) p = true ↔
  Rabs (vz p) <= dz ∧ Rabs (vy p) <= dy ∧ 2 * dz * Rabs (vx p) <= dx1 * (dz - vz p) + dx2 * (dz + vz p).
Proof.
  intros Hz H1 H3 H4 H5. assert (E : mk_trap_trd1 dx1 dx2 dy dz = mk_trap_trd2 dx1 dx2 dy dy dz).
  { unfold mk_trap_trd1, mk_trap_trd2, mk_trap, trap_struct. rewrite tan_0. done. }
  rewrite E, C82_make_trd2 by lra. assert (2 * dz * Rabs (vy p) <= dy * (dz - vz p) + dy * (dz + vz p) ↔ Rabs (vy p) <= dy) as ->; [|done].
  replace (dy * (dz - vz p) + dy * (dz + vz p)) with (2 * dz * dy) by ring. split; [apply Rmult_le_reg_l; lra|apply Rmult_le_compat_l; lra].
Qed.
(** Trapezoids like a box and like a parallelepiped. *)
Theorem C82_make_para dx dy dz alpha theta phi p : 0 < dx → 0 < dy → 0 < dz →
  let y := vy p - tan theta * sin phi * vz p in
  trap_contains (mk_trap_para dx dy dz alpha theta phi) p = true ↔
  Rabs (vz p) <= dz ∧ Rabs y <= dy ∧ Rabs (vx p - tan theta * cos phi * vz p - tan alpha * y) <= dx.
Proof.
  intros Hx Hy Hz y. set (tc := tan theta * cos phi). set (ts := tan theta * sin phi).
  assert (P : proper dz tc ts dy dx dx (tan alpha) dy dx dx (tan alpha)) by (unfold proper; repeat split; try lra; flatten).
  unfold mk_trap_para, trap_struct. cbn [tz_dz tz_theta tz_phi tz_dy1 tz_dx1 tz_dx2 tz_ta1 tz_dy2 tz_dx3 tz_dx4 tz_ta2 tz_tc tz_ts tz_planes tz_areas]. fold tc ts.
  rewrite (C82_contains _ _ _ _ _ _ _ _ _ _ _ _ _ _ _ P).
  assert (S : hull (eight dz tc ts dy dx dx (tan alpha) dy dx dx (tan alpha)) p ↔ sect dz tc ts dy dx dx (tan alpha) dy dx dx p) by (split; [by apply hull_sect|by apply sect_hull]).
  rewrite S. unfold sect. fold y.
  replace ((dy + dy) / 2 + (dy - dy) / (2 * dz) * vz p) with dy by (field; lra).
  replace ((dx + dx + dx + dx) / 4 + (dx + dx - dx - dx) / (4 * dz) * vz p + (dx - dx) / (2 * dy) * (vy p - ts * vz p)) with dx by (field; lra). done.
Qed.
Theorem C82_make_box x y z p : 0 < x → 0 < y → 0 < z →
  trap_contains (mk_trap_box x y z) p = true ↔ Rabs (vx p) <= x ∧ Rabs (vy p) <= y ∧ Rabs (vz p) <= z.
Proof.
  intros Hx Hy Hz. assert (E : mk_trap_box x y z = mk_trap_trd1 x x y z) by done. rewrite E, C82_make_trd1 by lra.
  assert (2 * z * Rabs (vx p) <= x * (z - vz p) + x * (z + vz p) ↔ Rabs (vx p) <= x) as ->; [|tauto].
  replace (x * (z - vz p) + x * (z + vz p)) with (2 * z * x) by ring. split; [apply Rmult_le_reg_l; lra|apply Rmult_le_compat_l; lra].
Qed.
Print Assumptions C82_make.
Print Assumptions C82_make_trd2.
Print Assumptions C82_make_trd1.
Print Assumptions C82_make_para.
Print Assumptions C82_make_box.

Definition clist (c : corners) : list v3 := [c0 c; c1 c; c2 c; c3 c; c4 c; c5 c; c6 c; c7 c].
Lemma extreme_min g c : (∀ v, In v (clist c) → extreme Rmin g c <= g v) ∧ ∃ v, In v (clist c) ∧ g v = extreme Rmin g c.
Proof.
  unfold clist, extreme. split.
  - intros v Hv. cbn in Hv. destruct_or? Hv; try done; subst v;
      repeat match goal with |- Rmin ?a ?b <= ?x => match a with context [x] => eapply Rle_trans; [apply Rmin_l|] | _ => eapply Rle_trans; [apply Rmin_r|] end end; apply Rle_refl.
  - unfold Rmin. repeat destruct (Rle_dec _ _); eexists; (split; [|reflexivity]); cbn; tauto.
Qed.
Lemma extreme_max g c : (∀ v, In v (clist c) → g v <= extreme Rmax g c) ∧ ∃ v, In v (clist c) ∧ g v = extreme Rmax g c.
Proof.
  unfold clist, extreme. split.
  - intros v Hv. cbn in Hv. destruct_or? Hv; try done; subst v;
      repeat match goal with |- ?x <= Rmax ?a ?b => match a with context [x] => eapply Rle_trans; [|apply Rmax_l] | _ => eapply Rle_trans; [|apply Rmax_r] end end; apply Rle_refl.
  - unfold Rmax. repeat destruct (Rle_dec _ _); eexists; (split; [|reflexivity]); cbn; tauto.
Qed.
(** Corners are in their hull; linear bounds at the corners hold in the hull. *)
Lemma hull_corner vs v : In v vs → hull vs v.
Proof.
  revert v. induction vs as [|w vs IH]; intros v; [done|]. intros [->|Hi].
  - exists (1 :: repeat 0 (length vs)). cbn [length]. rewrite repeat_length. split; [done|]. split; [constructor; [lra|]; apply Forall_forall; intros x Hx; apply elem_of_list_In, repeat_spec in Hx; lra|].
    assert (Z : ∀ l : list v3, foldr Rplus 0 (repeat 0 (length l)) = 0 ∧ mix (repeat 0 (length l)) l = vzero).
    { induction l as [|x l [IH1 IH2]]; [done|]. unfold mix in *. cbn. rewrite IH1, IH2. split; [lra|]. apply v3_eq; cbn; ring. }
    destruct (Z vs) as [Z1 Z2]. unfold mix in *. cbn. rewrite Z1, Z2. split; [lra|]. apply v3_eq; cbn; ring.
  - destruct (IH _ Hi) as (ws & H1 & H2 & H3 & ->). exists (0 :: ws). split; [cbn; lia|]. split; [constructor; [lra|done]|]. split; [cbn; lra|].
    unfold mix. cbn. apply v3_eq; cbn; ring.
Qed.
Section Corners.
Variables (dz tc ts dy1 dx1 dx2 ta1 dy2 dx3 dx4 ta2 : R).
Hypothesis P : proper dz tc ts dy1 dx1 dx2 ta1 dy2 dx3 dx4 ta2.
Let E8 := eight dz tc ts dy1 dx1 dx2 ta1 dy2 dx3 dx4 ta2.
Definition corners_of (l : list v3) : corners := 
  Corners (nth 0 l vzero) (nth 1 l vzero) (nth 2 l vzero) (nth 3 l vzero) (nth 4 l vzero) (nth 5 l vzero) (nth 6 l vzero) (nth 7 l vzero).
Lemma to_corners_eight th ph pls ars : to_corners (Trap dz th ph dy1 dx1 dx2 ta1 dy2 dx3 dx4 ta2 tc ts pls ars) = corners_of E8.
Proof using. unfold to_corners, corners_of, E8, eight, low_corner, high_corner. cbn [nth]. f_equal; apply v3_eq; cbn; ring. Qed.
Lemma good_of p1 p2 p3 p4 nd : triple p1 p2 p3 p4 = 0 → face_good nd p1 p2 p3 p4 = true.
Proof using.
  intros H. unfold face_good. destruct nd; [done|]. unfold unitize. set (i := 1 / vmag _). set (ctr := vscale (1 / 4) _).
  assert (Z : ∀ p, vdot (vcross (vsub p3 p1) (vsub p4 p2)) (vsub p ctr) = 0 → Rabs (vdot (vscale i (vcross (vsub p3 p1) (vsub p4 p2))) (vsub p ctr)) = 0).
  { intros p Hp. replace (vdot _ _) with (i * vdot (vcross (vsub p3 p1) (vsub p4 p2)) (vsub p ctr)) by (unfold vdot, vscale; cbn [vx vy vz]; ring). rewrite Hp, Rmult_0_r. apply Rabs_R0. }
  unfold triple, vdot, vcross, vsub in H. cbn [vx vy vz] in H.
  rewrite !Z by (unfold ctr, vdot, vcross, vsub, vscale, vadd; cbn [vx vy vz]; lra). rewrite !Rmax_left by lra.
  destruct (rgtb_spec 0 (1000 * kTolerance)); [pose proof kTolerance_pos; lra|done].
Qed.
(** Made from its eight corners: the same parameters, the solid of the corners, and the answer of MakePlanes is true. *)
Theorem C82_corners nd phi : ∃ t, mk_trap_corners nd phi (corners_of E8) = Some (t, true) ∧
  (tz_dz t, tz_dy1 t, tz_dx1 t, tz_dx2 t, tz_ta1 t, tz_dy2 t, tz_dx3 t, tz_dx4 t, tz_ta2 t, tz_tc t, tz_ts t) = (dz, dy1, dx1, dx2, ta1, dy2, dx3, dx4, ta2, tc, ts) ∧
  t = make_planes (Trap dz (atan (R_sqrt.sqrt (ts * ts + tc * tc))) phi dy1 dx1 dx2 ta1 dy2 dx3 dx4 ta2 tc ts zero_planes []) ∧
  ∀ p, trap_contains t p = true ↔ hull E8 p.
Proof using P.
  pose proof P as (Hz & H1 & H2 & _ & _ & _ & _ & _ & _ & _ & F2). unfold mk_trap_corners.
  set (c := corners_of E8). 
  assert (A1 : vz (c7 c) = dz) by done. assert (A2 : 1 / 2 * (vy (c2 c) - vy (c0 c)) = dy1) by (cbn; lra). assert (A3 : 1 / 2 * (vx (c1 c) - vx (c0 c)) = dx1) by (cbn; lra).
  assert (A4 : 1 / 2 * (vx (c3 c) - vx (c2 c)) = dx2) by (cbn; lra). assert (A5 : 1 / 2 * (vy (c6 c) - vy (c4 c)) = dy2) by (cbn; lra).
  assert (A6 : 1 / 2 * (vx (c5 c) - vx (c4 c)) = dx3) by (cbn; lra). assert (A7 : 1 / 2 * (vx (c7 c) - vx (c6 c)) = dx4) by (cbn; lra).
  assert (A8 : 1 / 4 * (vx (c2 c) + vx (c3 c) - vx (c1 c) - vx (c0 c)) / dy1 = ta1) by (cbn; field; lra).
  assert (A9 : 1 / 4 * (vx (c6 c) + vx (c7 c) - vx (c5 c) - vx (c4 c)) / dy2 = ta2) by (cbn; field; lra).
  assert (A10 : (vx (c4 c) + dy2 * ta2 + dx3) * (1 / dz) = tc) by (cbn; field; lra). assert (A11 : (vy (c4 c) + dy2) * (1 / dz) = ts) by (cbn; field; lra).
  cbv zeta. rewrite A1, A2, A3, A4, A5, A6, A7, A8, A9, A10, A11.
  destruct (reqb_spec dz 0); [lra|]. destruct (reqb_spec dy1 0); [lra|]. destruct (reqb_spec dy2 0); [lra|]. cbn [orb].
  eexists. split; [unfold make_planes_at; f_equal; f_equal|].
  - apply good_of. unfold coplanar, triple in F2. unfold c, corners_of, E8, eight. cbn [c1 c3 c5 c7 nth].
    unfold triple, vdot, vcross, vsub in F2 |- *. cbn [vx vy vz] in F2 |- *. lra.
  - split; [done|]. assert (Et : make_planes (Trap dz (atan (R_sqrt.sqrt (ts * ts + tc * tc))) phi dy1 dx1 dx2 ta1 dy2 dx3 dx4 ta2 tc ts zero_planes []) =
      fst (make_planes_at true (Trap dz (atan (R_sqrt.sqrt (ts * ts + tc * tc))) phi dy1 dx1 dx2 ta1 dy2 dx3 dx4 ta2 tc ts zero_planes []) c)).
    { unfold make_planes, c. by rewrite to_corners_eight. }
    split; [rewrite Et; done|]. intros p. etransitivity; [|apply (C82_contains dz (atan (R_sqrt.sqrt (ts * ts + tc * tc))) phi dy1 dx1 dx2 ta1 dy2 dx3 dx4 ta2 tc ts zero_planes [] P p)]. by rewrite Et.
Qed.
Variables (th ph : R) (pls : list plane) (ars : list R).
Let t0 := Trap dz th ph dy1 dx1 dx2 ta1 dy2 dx3 dx4 ta2 tc ts pls ars.
Let t := make_planes t0.
(** The corners that fromPlanesToCorners computes back. *)
Lemma plane_corners_back : plane_corners t = Some (corners_of E8).
Proof using P.
  assert (Et : tz_planes t = side_planes dz tc ts dy1 dx1 dx2 ta1 dy2 dx3 dx4) by by apply (planes_made _ _ _ _ _ _ _ _ _ _ _ P).
  destruct (flat _ _ _ _ _ _ _ _ _ _ _ P) as (Ea & E2 & E4). pose proof P as (Hz & H1 & H2 & _).
  destruct (v_pos dz tc ts dy1 dx1 dx2 ta1 dy2 dx3 dx4) as (A0 & A1 & A2 & A3). apply vmag_pos in A0, A1, A2, A3.
  unfold plane_corners. rewrite Et. unfold side_planes. change (tz_dz t) with dz. f_equal.
  assert (Cy : ∀ v e s, 0 < vmag v → vy v ≠ 0 → corner_y dz (Plane (unitize v) (- (e / vmag v))) s = (e - s * dz * vz v) / vy v).
  { intros v e s Hv Hy. unfold corner_y, unitize, vscale. cbn [pl_n pl_d vx vy vz]. field. lra. }
  assert (Cx : ∀ v e w f s, 0 < vmag v → 0 < vmag w → vy v ≠ 0 → vx w ≠ 0 →
    corner_x dz (Plane (unitize v) (- (e / vmag v))) (Plane (unitize w) (- (f / vmag w))) s = (f - s * dz * vz w - vy w * ((e - s * dz * vz v) / vy v)) / vx w).
  { intros v e w f s Hv Hw Hy Hx. unfold corner_x, unitize, vscale. cbn [pl_n pl_d vx vy vz]. field. lra. }
  unfold corners_of, E8, eight. cbn [nth]. unfold low_corner, high_corner. set (k := (dx2 - dx1) / (2 * dy1)) in *. clearbody k.
  f_equal; apply v3_eq; cbn [vx vy vz]; rewrite ?Cx, ?Cy by (try done; cbn [vx vy]; lra); cbn [vx vy vz]; rewrite ?Ea, ?E4, ?E2; try (field; lra); lra.
Qed.
(** Extent: holds the solid, and every side of it touches the solid. *)
Theorem C82_extent : ∃ lo hi, trap_extent t = Some (lo, hi) ∧
  (∀ q, hull E8 q → vx lo <= vx q <= vx hi ∧ vy lo <= vy q <= vy hi ∧ vz lo <= vz q <= vz hi) ∧
  (∃ q, hull E8 q ∧ vx q = vx lo) ∧ (∃ q, hull E8 q ∧ vy q = vy lo) ∧ (∃ q, hull E8 q ∧ vz q = vz lo) ∧
  (∃ q, hull E8 q ∧ vx q = vx hi) ∧ (∃ q, hull E8 q ∧ vy q = vy hi) ∧ (∃ q, hull E8 q ∧ vz q = vz hi).
Proof using P.
  unfold trap_extent. rewrite plane_corners_back. cbn [mbind option_bind]. eexists _, _. split; [done|].
  set (c := corners_of E8). change (tz_dz t) with dz.
  assert (Hc : E8 = clist c) by done. assert (Hz : 0 < dz) by apply P.
  assert (Up : ∀ n b q, (∀ v, In v E8 → vdot v n <= b) → hull E8 q → vdot q n <= b) by (intros n b q Hb Hq; by apply (hull_below E8 q)).
  assert (Dx : ∀ q s, vdot q (V3 s 0 0) = s * vx q) by (intros; unfold vdot; cbn; ring). assert (Dy : ∀ q s, vdot q (V3 0 s 0) = s * vy q) by (intros; unfold vdot; cbn; ring).
  assert (Z : ∀ v, In v E8 → Rabs (vz v) <= dz) by (intros v Hv; by apply (corners_sect _ _ _ _ _ _ _ _ _ _ _ P)).
  cbn [vx vy vz]. destruct (extreme_min vx c) as [M1 M2]. destruct (extreme_min vy c) as [M3 M4]. destruct (extreme_max vx c) as [M5 M6]. destruct (extreme_max vy c) as [M7 M8].
  rewrite <- Hc in *. split; [|split; [|split; [|split; [|split; [|split]]]]].
  - intros q Hq. repeat split.
    + assert (-1 * vx q <= - extreme Rmin vx c); [|lra]. rewrite <- Dx. apply Up; [|done]. intros v Hv. rewrite Dx. specialize (M1 _ Hv). lra.
    + assert (1 * vx q <= extreme Rmax vx c); [|lra]. rewrite <- Dx. apply Up; [|done]. intros v Hv. rewrite Dx. specialize (M5 _ Hv). lra.
    + assert (-1 * vy q <= - extreme Rmin vy c); [|lra]. rewrite <- Dy. apply Up; [|done]. intros v Hv. rewrite Dy. specialize (M3 _ Hv). lra.
    + assert (1 * vy q <= extreme Rmax vy c); [|lra]. rewrite <- Dy. apply Up; [|done]. intros v Hv. rewrite Dy. specialize (M7 _ Hv). lra.
    + apply (hull_sect _ _ _ _ _ _ _ _ _ _ _ P) in Hq as [Hq _]. apply abs_le_inv in Hq. lra.
    + apply (hull_sect _ _ _ _ _ _ _ _ _ _ _ P) in Hq as [Hq _]. apply abs_le_inv in Hq. lra.
  - destruct M2 as (v & Hv & E). exists v. split; [by apply hull_corner|done].
  - destruct M4 as (v & Hv & E). exists v. split; [by apply hull_corner|done].
  - exists (c0 c). split; [apply hull_corner; rewrite Hc; cbn; tauto|done].
  - destruct M6 as (v & Hv & E). exists v. split; [by apply hull_corner|done].
  - destruct M8 as (v & Hv & E). exists v. split; [by apply hull_corner|done].
  - exists (c7 c). split; [apply hull_corner; rewrite Hc; cbn; tauto|done].
Qed.
End Corners.
Print Assumptions C82_corners.
Print Assumptions C82_extent.
