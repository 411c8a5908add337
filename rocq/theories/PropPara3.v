(** C83: parallelepipeds and trapezoids of the same shape; normals at sharp edges. *)
From Coq Require Import Reals Lra Lia Bool ZArith Psatz.
From stdpp Require Import base list option numbers tactics.
From Verif Require Import Real3 AABBModel AABBSpec AABBProofs BoxModel BoxSpec BoxProofs PlanesModel PlanesSpec PlanesProofs TrapModel TrapSpec TrapProofs TrapProofs2 ParaModel ParaSpec ParaProofs.
From Verif Require PropTrap PropTrap2 PropPara.
Import stdpp.list.
Local Open Scope R_scope.

Section Same.
Variables (dx dy dz alpha theta phi : R).
Hypotheses (Hx : 0 < dx) (Hy : 0 < dy) (Hz : 0 < dz).
Let s := up_para (mk_para dx dy dz alpha theta phi).
Let t := mk_trap_para dx dy dz alpha theta phi.
Let ta := tan alpha. Let tc := tan theta * cos phi. Let ts := tan theta * sin phi.
Lemma made : reachable s.
Proof using. by exists dx, dy, dz, alpha, theta, phi, []. Qed.
Lemma proper_para : proper dz tc ts dy dx dx ta dy dx dx ta.
Proof using Hx Hy Hz. unfold proper. repeat split; try lra; unfold coplanar, triple, low_corner, high_corner, vdot; cbn; ring. Qed.
Lemma walls_para : walls dz tc ts dy dx dx ta dy dx dx =
  let nx := vcross (edge_y ta) (edge_z tc ts) in let ny := vcross (edge_z tc ts) edge_x in [wall (vneg ny) dy; wall ny dy; wall (vneg nx) dx; wall nx dx].
Proof using Hx Hy Hz.
  assert (E : ∀ v w e f, v = w → e = f → wall v e = wall w f) by (by intros v w e f -> ->).
  unfold walls. cbv zeta. repeat apply PropTrap.cons_eq; try reflexivity; (apply E; [apply v3_eq; cbn; field; lra|field; lra]).
Qed.
Lemma trap_eq : t = make_planes (Trap dz theta phi dy dx dx ta dy dx dx ta tc ts zero_planes []).
Proof using. done. Qed.
Lemma same_faces n k : In (n, k) (halves (six_of t)) ↔ In (n, k) (facets ta tc ts dx dy dz).
Proof using Hx Hy Hz.
  rewrite trap_eq, (PropTrap.faces_t _ _ _ _ _ _ _ _ _ _ _ _ _ _ _ proper_para), walls_para. unfold facets, lids. cbv zeta.
  assert (E3 : vcross edge_x (edge_y ta) = V3 0 0 1) by (apply v3_eq; cbn; ring). rewrite E3.
  assert (E4 : wall (V3 0 0 1) dz = (V3 0 0 1, - dz)) by (unfold wall; rewrite vmag_e3; apply f_equal2; [apply v3_eq; cbn; field|field]).
  assert (E5 : wall (vneg (V3 0 0 1)) dz = (V3 0 0 (-1), - dz)) by (unfold wall; rewrite vmag_neg, vmag_e3; apply f_equal2; [apply v3_eq; cbn; field|field]).
  rewrite E4, E5. cbn [In app]. tauto.
Qed.
Lemma same_top p : top_height t p = ptop s p.
Proof using Hx Hy Hz.
  destruct (TrapProofs2.top_spec t p) as (A & [n k] & Hi & B). destruct (PropPara.top_heights s made p) as (A' & n' & k' & Hi' & B').
  apply Rle_antisym.
  - rewrite <- B. rewrite <- height_dist. cbn [pl_n pl_d]. apply A'. apply in_halves in Hi. by apply same_faces in Hi.
  - rewrite <- B'. assert (In (n', k') (halves (six_of t))) as Hj by (by apply same_faces). apply in_halves in Hj. specialize (A _ Hj). rewrite <- height_dist in A. exact A.
Qed.
(** The trapezoid made from the lengths and angles of a parallelepiped: the same hull of eight corners.  Contains differs on
    the surface only, where the trapezoid says yes; Inside at half a tolerance exactly; safeties where those of the
    parallelepiped are set to zero. *)
Theorem C83_trapezoid p :
  (oblique ta tc ts dx dy dz p ↔ hull (eight dz tc ts dy dx dx ta dy dx dx ta) p) ∧
  (trap_contains t p = true ↔ para_contains s p = true ∨ trap_safety_in t p = 0) ∧
  (Rabs (trap_safety_in t p) ≠ kHalfTolerance → trap_inside t p = para_inside s p) ∧
  (para_inside s p ≠ kSurface → para_safety_in s p = trap_safety_in t p ∧ para_safety_out s p = trap_safety_out t p) ∧
  (para_inside s p = kSurface → Rabs (trap_safety_in t p) < kHalfTolerance).
Proof using Hx Hy Hz.
  pose proof kHalfTolerance_pos as Hh. pose proof (same_top p) as E. unfold top_height in E. split; [|split; [|split; [|split]]].
  - transitivity (ptop s p <= 0); [exact (PropPara.S_top s made p)|]. rewrite <- same_top. symmetry. rewrite trap_eq. apply (PropTrap.solid_top _ _ _ _ _ _ _ _ _ _ _ _ _ _ _ proper_para).
  - rewrite contains_top, ?E; unfold top_height; rewrite ?E. unfold para_contains. rewrite rltb_true. fold (ptop s p). lra.
  - rewrite inside_top, ?E; unfold top_height; rewrite ?E. unfold para_inside. cbv zeta. fold (ptop s p). intros Hn.
    destruct (rltb_spec (Rabs (ptop s p)) kHalfTolerance) as [L|L].
    + apply abs_lt in L. destruct (rltb_spec (ptop s p) (- kHalfTolerance)); [lra|]. destruct (rgtb_spec (ptop s p) kHalfTolerance); [lra|done].
    + destruct (rltb_spec (ptop s p) 0).
      * rewrite Rabs_left in L, Hn by done. destruct (rltb_spec (ptop s p) (- kHalfTolerance)); [done|lra].
      * rewrite Rabs_pos_eq in L, Hn by lra. destruct (rltb_spec (ptop s p) (- kHalfTolerance)); [lra|]. destruct (rgtb_spec (ptop s p) kHalfTolerance); [done|lra].
  - rewrite safety_out_top, ?E; unfold top_height; rewrite ?E. unfold para_inside, para_safety_in, para_safety_out. cbv zeta. fold (ptop s p). rewrite Rabs_Ropp. destruct (rltb (Rabs (ptop s p)) kHalfTolerance); done.
  - rewrite E. unfold para_inside. cbv zeta. fold (ptop s p). destruct (rltb_spec (Rabs (ptop s p)) kHalfTolerance); [done|]. destruct (rltb (ptop s p) 0); done.
Qed.
End Same.
Print Assumptions C83_trapezoid.

(** A shear of 4/3, lengths one. *)
Definition sheared : para := up_para (mk_para 1 1 1 (atan (4/3)) 0 0).
Lemma sheared_members : pp_ta sheared = 4/3 ∧ pp_tc sheared = 0 ∧ pp_ts sheared = 0 ∧ pp_nx sheared = V3 (3/5) (-(4/5)) 0 ∧ pp_ny sheared = V3 0 1 0 ∧ pp_ctx sheared = 3/5 ∧ pp_cty sheared = 1 ∧ pp_dim sheared = V3 1 1 1.
Proof.
  unfold sheared, mk_para. cbn [up_para para_struct set_theta_phi set_alpha compute_normals pp_ta pp_tc pp_ts pp_nx pp_ny pp_dim pp_ctx pp_cty]. rewrite tan_atan, tan_0, !Rmult_0_l.
  assert (M1 : vmag (vcross (V3 (4/3) 1 0) (V3 0 0 1)) = 5/3) by (apply PropTrap.vmag_is; [lra|]; unfold vdot; cbn; lra).
  assert (M2 : vmag (vcross (V3 0 0 1) (V3 1 0 0)) = 1) by (apply PropTrap.vmag_is; [lra|]; unfold vdot; cbn; lra).
  assert (N1 : unitize (vcross (V3 (4/3) 1 0) (V3 0 0 1)) = V3 (3/5) (-(4/5)) 0) by (unfold unitize; rewrite M1; apply v3_eq; cbn; field).
  assert (N2 : unitize (vcross (V3 0 0 1) (V3 1 0 0)) = V3 0 1 0) by (unfold unitize; rewrite M2; apply v3_eq; cbn; field).
  rewrite N1, N2. cbn [vx vy vz]. rewrite !Rabs_pos_eq by lra. done.
Qed.
(** At a sharp edge the normal is shorter than one: (3/5, 1/5, 0). *)
Theorem C83_normal_unit_refuted : ∃ p, para_inside sheared p = kSurface ∧ para_normal sheared p = (V3 (3/5) (1/5) 0, true) ∧ vdot (V3 (3/5) (1/5) 0) (V3 (3/5) (1/5) 0) = 2/5.
Proof.
  exists (V3 (7/3) 1 0). destruct sheared_members as (Ea & Ec & Et & Ex & Ey & Cx & Cy & Ed). pose proof kHalfTolerance_pos as Hh.
  assert (T : transform sheared (V3 (7/3) 1 0) = V3 1 1 0) by (unfold transform; rewrite Ea, Ec, Et; apply v3_eq; cbn; field).
  assert (V : safety_vector sheared (V3 1 1 0) = V3 0 0 (-1)) by (unfold safety_vector; rewrite Cx, Cy, Ed; cbn [vabs vsub vx vy vz]; rewrite Rabs_R0, Rabs_pos_eq by lra; apply v3_eq; cbn [vx vy vz]; lra).
  assert (H1 : kHalfTolerance < 1) by (unfold kHalfTolerance, kTolerance; lra). split; [|split; [|unfold vdot; cbn [vx vy vz]; lra]].
  - unfold para_inside. rewrite T, V. assert (E : vmax (V3 0 0 (-1)) = 0) by (unfold vmax, Rmax; cbn [vx vy vz]; repeat destruct (Rle_dec _ _); lra). rewrite E. cbv zeta. rewrite Rabs_R0.
    destruct (rltb_spec 0 kHalfTolerance); [done|lra].
  - unfold para_normal. rewrite T, V. cbn [vx vy vz vsign]. rewrite Rabs_R0, (Rabs_left (-1)) by lra. cbv zeta. destruct (rleb_spec (- (-1)) kHalfTolerance); [lra|]. destruct (rleb_spec 0 kHalfTolerance); [|lra].
    rewrite Ex, Ey. unfold vsign. cbn [vx vy vz]. assert (S1 : rsign 1 = 1) by (unfold rsign; destruct (rltb_spec 1 0); lra). rewrite S1.
    assert (E : vadd (vadd vzero (vscale 1 (V3 0 1 0))) (vscale 1 (V3 (3/5) (-(4/5)) 0)) = V3 (3/5) (1/5) 0) by (apply v3_eq; cbn; lra). rewrite E.
    assert (D : vdot (V3 (3/5) (1/5) 0) (V3 (3/5) (1/5) 0) = 2/5) by (unfold vdot; cbn [vx vy vz]; lra). rewrite D. destruct (rgtb_spec (2/5) 1); [lra|]. destruct (rgtb_spec (2/5) 0); [done|lra].
Qed.
Print Assumptions C83_normal_unit_refuted.
(** Normal calls points far outside valid when they are in the plane of a face. *)
Theorem C83_normal_valid_refuted : ∃ p, para_inside sheared p = kOutside ∧ para_safety_in sheared p = 8 ∧ para_normal sheared p = (V3 (3/5) (-(4/5)) 0, true).
Proof.
  exists (V3 13 9 0). destruct sheared_members as (Ea & Ec & Et & Ex & Ey & Cx & Cy & Ed). pose proof kHalfTolerance_pos as Hh.
  assert (T : transform sheared (V3 13 9 0) = V3 1 9 0) by (unfold transform; rewrite Ea, Ec, Et; apply v3_eq; cbn; field).
  assert (V : safety_vector sheared (V3 1 9 0) = V3 0 8 (-1)) by (unfold safety_vector; rewrite Cx, Cy, Ed; cbn [vabs vsub vx vy vz]; rewrite Rabs_R0, !Rabs_pos_eq by lra; apply v3_eq; cbn [vx vy vz]; lra).
  assert (H1 : kHalfTolerance < 1) by (unfold kHalfTolerance, kTolerance; lra).
  assert (E : vmax (V3 0 8 (-1)) = 8) by (unfold vmax, Rmax; cbn [vx vy vz]; repeat destruct (Rle_dec _ _); lra). split; [|split].
  - unfold para_inside. rewrite T, V, E. cbv zeta. rewrite Rabs_pos_eq by lra. destruct (rltb_spec 8 kHalfTolerance); [lra|]. destruct (rltb_spec 8 0); [lra|done].
  - unfold para_safety_in. rewrite T, V, E. cbv zeta. rewrite Rabs_pos_eq by lra. destruct (rltb_spec 8 kHalfTolerance); [lra|done].
  - unfold para_normal. rewrite T, V. cbn [vx vy vz vsign]. rewrite Rabs_R0, (Rabs_left (-1)), (Rabs_pos_eq 8) by lra. cbv zeta. destruct (rleb_spec (- (-1)) kHalfTolerance); [lra|]. destruct (rleb_spec 8 kHalfTolerance); [lra|]. destruct (rleb_spec 0 kHalfTolerance); [|lra].
    rewrite Ex. unfold vsign. cbn [vx vy vz]. assert (S1 : rsign 1 = 1) by (unfold rsign; destruct (rltb_spec 1 0); lra). rewrite S1.
    assert (E' : vadd vzero (vscale 1 (V3 (3/5) (-(4/5)) 0)) = V3 (3/5) (-(4/5)) 0) by (apply v3_eq; cbn; lra). rewrite E'.
    assert (D : vdot (V3 (3/5) (-(4/5)) 0) (V3 (3/5) (-(4/5)) 0) = 1) by (unfold vdot; cbn [vx vy vz]; lra). rewrite D. destruct (rgtb_spec 1 1); [lra|]. destruct (rgtb_spec 1 0); [done|lra].
Qed.
Print Assumptions C83_normal_valid_refuted.
(** The solid of the theorems: a point inside, one outside, one on the face at +x. *)
Example C83_sheared : reachable sheared ∧ para_contains sheared (V3 1 (3/4) (1/2)) = true ∧ para_inside sheared (V3 2 0 0) = kOutside ∧ para_inside sheared (V3 1 0 0) = kSurface ∧
  para_normal sheared (V3 1 0 0) = (V3 (3/5) (-(4/5)) 0, true) ∧ para_safety_in sheared (V3 2 0 0) = 3/5.
Proof.
  destruct sheared_members as (Ea & Ec & Et & Ex & Ey & Cx & Cy & Ed). pose proof kHalfTolerance_pos as Hh. assert (H1 : kHalfTolerance < 1/10) by (unfold kHalfTolerance, kTolerance; lra).
  assert (T : ∀ x y z, transform sheared (V3 x y z) = V3 (x - 4/3 * y) y z) by (intros; unfold transform; rewrite Ea, Ec, Et; apply v3_eq; cbn; field).
  assert (V : ∀ x y z, safety_vector sheared (V3 x y z) = V3 ((Rabs x - 1) * (3/5)) (Rabs y - 1) (Rabs z - 1)) by (intros; unfold safety_vector; rewrite Cx, Cy, Ed; cbn [vabs vsub vx vy vz]; apply v3_eq; cbn [vx vy vz]; lra).
  assert (T1 : vmax (safety_vector sheared (transform sheared (V3 1 (3/4) (1/2)))) < 0) by (rewrite T, V; replace (1 - 4/3 * (3/4)) with 0 by lra; rewrite Rabs_R0, !Rabs_pos_eq by lra; unfold vmax, Rmax; cbn [vx vy vz]; repeat destruct (Rle_dec _ _); lra).
  assert (T2 : vmax (safety_vector sheared (transform sheared (V3 2 0 0))) = 3/5) by (rewrite T, V; replace (2 - 4/3 * 0) with 2 by lra; rewrite Rabs_R0, !Rabs_pos_eq by lra; unfold vmax, Rmax; cbn [vx vy vz]; repeat destruct (Rle_dec _ _); lra).
  assert (T3 : safety_vector sheared (transform sheared (V3 1 0 0)) = V3 0 (-1) (-1)) by (rewrite T, V; replace (1 - 4/3 * 0) with 1 by lra; rewrite Rabs_R0, !Rabs_pos_eq by lra; apply v3_eq; cbn [vx vy vz]; lra).
  split; [by eexists _, _, _, _, _, _, []|]. split; [by apply rltb_true|]. split; [|split; [|split]].
  - unfold para_inside. rewrite T2. cbv zeta. rewrite Rabs_pos_eq by lra. destruct (rltb_spec (3/5) kHalfTolerance); [lra|]. destruct (rltb_spec (3/5) 0); [lra|done].
  - unfold para_inside. rewrite T3. assert (E : vmax (V3 0 (-1) (-1)) = 0) by (unfold vmax, Rmax; cbn [vx vy vz]; repeat destruct (Rle_dec _ _); lra). rewrite E. cbv zeta. rewrite Rabs_R0. destruct (rltb_spec 0 kHalfTolerance); [done|lra].
  - unfold para_normal. rewrite T3, T. cbn [vx vy vz vsign]. rewrite Rabs_R0, (Rabs_left (-1)) by lra. cbv zeta. destruct (rleb_spec (- (-1)) kHalfTolerance); [lra|]. destruct (rleb_spec 0 kHalfTolerance); [|lra].
    rewrite Ex. unfold vsign. cbn [vx vy vz]. replace (1 - 4/3 * 0) with 1 by lra. assert (S1 : rsign 1 = 1) by (unfold rsign; destruct (rltb_spec 1 0); lra). rewrite S1.
    assert (E' : vadd vzero (vscale 1 (V3 (3/5) (-(4/5)) 0)) = V3 (3/5) (-(4/5)) 0) by (apply v3_eq; cbn; lra). rewrite E'.
    assert (D : vdot (V3 (3/5) (-(4/5)) 0) (V3 (3/5) (-(4/5)) 0) = 1) by (unfold vdot; cbn [vx vy vz]; lra). rewrite D. destruct (rgtb_spec 1 1); [lra|]. destruct (rgtb_spec 1 0); [done|lra].
  - unfold para_safety_in. rewrite T2. cbv zeta. rewrite Rabs_pos_eq by lra. destruct (rltb_spec (3/5) kHalfTolerance); [lra|done].
Qed.
(** Rays along x: out of the middle, and in from (-3, 0, 0). *)
Example C83_sheared_rays inf : para_to_out sheared (V3 0 0 0) (V3 1 0 0) = 1 / (1 + kTiny) ∧ para_to_in inf sheared (V3 (-3) 0 0) (V3 1 0 0) = 2 / (1 + kTiny) ∧
  para_to_in inf sheared (V3 (-3) 0 0) (V3 (-1) 0 0) = inf.
Proof.
  destruct sheared_members as (Ea & Ec & Et & Ex & Ey & Cx & Cy & Ed). pose proof kHalfTolerance_pos as Hh. assert (H1 : kHalfTolerance < 1/10) by (unfold kHalfTolerance, kTolerance; lra).
  pose proof kTiny_pos as Hk. assert (H2 : kTiny < 1/10) by (unfold kTiny; lra).
  assert (T : ∀ x z, transform sheared (V3 x 0 z) = V3 x 0 z) by (intros; unfold transform; rewrite Ea, Ec, Et; apply v3_eq; cbn; field).
  assert (V : ∀ x y z, safety_vector sheared (V3 x y z) = V3 ((Rabs x - 1) * (3/5)) (Rabs y - 1) (Rabs z - 1)) by (intros; unfold safety_vector; rewrite Cx, Cy, Ed; cbn [vabs vsub vx vy vz]; apply v3_eq; cbn [vx vy vz]; lra).
  assert (N0 : nonzero 0 = kTiny) by (unfold nonzero; destruct (rltb_spec 0 0); lra). assert (N1 : nonzero 1 = 1 + kTiny) by (unfold nonzero; destruct (rltb_spec 1 0); lra).
  assert (Sg : ∀ x, 0 < x → rsign x = 1) by (intros x Hp; unfold rsign; destruct (rltb_spec x 0); lra).
  assert (I1 : 0 < 1 / (1 + kTiny) < 1) by (split; [apply Rdiv_lt_0_compat; lra|apply (Rmult_lt_reg_r (1 + kTiny)); [lra|field_simplify; lra]]).
  assert (I0 : 10 < 1 / kTiny) by (apply (Rmult_lt_reg_r kTiny); [lra|]; field_simplify; lra).
  assert (I2 : 9/10 < 1 / (1 + kTiny)) by (apply (Rmult_lt_reg_r (1 + kTiny)); [lra|]; field_simplify; lra).
  split; [|split].
  - unfold para_to_out. rewrite !T, V, Ed. cbn [vx vy vz]. rewrite N0, N1. unfold vsign. cbn [vx vy vz]. rewrite (Sg kTiny Hk), (Sg (1 + kTiny)) by lra. rewrite Rabs_R0. cbv zeta.
    destruct (rgtb_spec (vmax (V3 ((0 - 1) * (3/5)) (0 - 1) (0 - 1))) kHalfTolerance) as [K|_]; [exfalso; revert K; unfold vmax, Rmax; cbn [vx vy vz]; repeat destruct (Rle_dec _ _); lra|].
    cbn [vmul vsub vx vy vz]. replace (1 * 1 - 0) with 1 by lra. unfold vmin, Rmin. cbn [vx vy vz]. repeat destruct (Rle_dec _ _); lra.
  - unfold para_to_in. rewrite !T, V, Ed. cbn [vx vy vz]. rewrite N0, N1. unfold vsign. cbn [vx vy vz]. rewrite !Sg by lra. cbv zeta. cbn [vmul vneg vsub vx vy vz]. rewrite Rabs_R0, Rabs_left by lra.
    destruct (rgeb_spec ((- (-3) - 1) * (3/5)) (- kHalfTolerance)); [|lra]. destruct (rgeb_spec (-3 * 1) 0); [lra|]. destruct (rgeb_spec (0 - 1) (- kHalfTolerance)); [lra|]. cbn [andb orb negb].
    set (a := 1 / (1 + kTiny)) in *. set (b := 1 / kTiny) in *. replace (2 / (1 + kTiny)) with (2 * a) by (unfold a; field; lra).
    match goal with |- context [vmax ?v] => assert (E1 : v = V3 (2 * a) (- b) (- b)) by (apply v3_eq; cbn; lra) end. rewrite E1. clear E1.
    match goal with |- context [vmin ?v] => assert (E2 : v = V3 (4 * a) b b) by (apply v3_eq; cbn; lra) end. rewrite E2. clear E2.
    assert (E1 : vmax (V3 (2 * a) (- b) (- b)) = 2 * a) by (unfold vmax, Rmax; cbn [vx vy vz]; repeat destruct (Rle_dec _ _); lra).
    assert (E2 : vmin (V3 (4 * a) b b) = 4 * a) by (unfold vmin, Rmin; cbn [vx vy vz]; repeat destruct (Rle_dec _ _); lra).
    rewrite E1, E2. destruct (rgtb_spec (4 * a) (2 * a + kHalfTolerance)); [done|lra].
  - unfold para_to_in. rewrite !T, V. cbn [vx vy vz]. cbv zeta. rewrite Rabs_left by lra. destruct (rgeb_spec ((- (-3) - 1) * (3/5)) (- kHalfTolerance)); [|lra]. destruct (rgeb_spec (-3 * -1) 0); [done|lra].
Qed.
