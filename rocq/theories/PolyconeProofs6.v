(** Particular polycones and cones, computed. *)
From Coq Require Import Reals Lra Lia Bool.
From stdpp Require Import base list option numbers tactics.
From Verif Require Import Real3 AABBModel BoxModel ConeModel ConeSpec ConeProofs PolyconeModel PolyconeSpec PolyconeProofs PolyconeProofs2 PolyconeProofs3 PolyconeProofs4 PolyconeProofs5.
Import stdpp.list.
Local Open Scope R_scope.

(** A phi section that is never asked. *)
Definition no_wedge : wedge_ops := WedgeOps (λ _ _ _, (true, false)) (λ _ _, true) (λ _ _, 0) (λ _ _, 0).

Lemma construct_some inf w dphi pls a0 a1 rest :
  oriented pls = a0 :: a1 :: rest → stacked kTolerance (a0 :: a1 :: rest) → pl_z a0 ≠ pl_z a1 → ∃ pc, construct inf w dphi pls = Some pc.
Proof.
  intros E Hs Hne. pose proof kTolerance_pos. unfold construct, init. rewrite E.
  assert (Hr : ∃ x r, reduced (a0 :: a1 :: rest) = x :: r).
  { unfold reduced, evened.
    assert (Hd : ∃ m, doubled (a0 :: a1 :: rest) = a0 :: a1 :: m).
    { cbn. destruct rest as [|a2 rest]; [by exists []|]. destruct (negb (reqb (pl_z a1) (pl_z a2)) || negb (reqb (pl_rmax a1) (pl_rmax a2))); eexists; reflexivity. }
    destruct Hd as [m ->]. destruct (Nat.odd _).
    - destruct (last (a0 :: a1 :: m)) as [y|]; cbn; (destruct (reqb_spec (pl_z a0) (pl_z a1)); [done|]); cbn; eauto.
    - cbn. destruct (reqb_spec (pl_z a0) (pl_z a1)); [done|]. cbn. eauto. }
  destruct Hr as ([b0 b1] & r & ->).
  assert (Hp : negb (rltb (pl_z a1) (pl_z a0)) = true).
  { destruct (rltb_spec (pl_z a1) (pl_z a0)); [|done]. destruct (Hs a0 a1 (adjacent_head _ _ _)); lra. }
  rewrite Hp. cbn [blank pc_zs pc_sections app]. rewrite (init_loop_frusta kTolerance); [|lra|done|done]. cbn [mbind option_bind]. eauto.
Qed.
(** The state of a polycone built from three planes at different heights. *)
Lemma construct_three inf w dphi a b c pc : pl_z a + kTolerance < pl_z b → pl_z b + kTolerance < pl_z c →
  construct inf w dphi [a; b; c] = Some pc →
  pc_zs pc = [pl_z a; pl_z b; pl_z c] ∧ ∃ rext, pc_sections pc = [section_of rext dphi w (a, b); section_of rext dphi w (b, c)].
Proof.
  intros H1 H2 Hc. pose proof kTolerance_pos.
  assert (Eo : oriented [a; b; c] = [a; b; c]).
  { unfold oriented. cbn. destruct (rgtb_spec (pl_z a) (pl_z c)); [lra|done]. }
  destruct (construct_built kTolerance inf w dphi [a; b; c] pc) as (prev & rest & E & Hb); [lra| |done|].
  { rewrite Eo. intros x y Hxy. apply adjacent_cons_inv in Hxy as [[-> ->]|Hxy]; [by right|].
    apply adjacent_cons_inv in Hxy as [[-> ->]|Hxy]; [by right|]. by apply adjacent_one in Hxy. }
  rewrite Eo in E. injection E as <- <-. destruct (b_secs _ _ _ _ _ _ Hb) as [rext Es]. pose proof (b_zs _ _ _ _ _ _ Hb) as Ez.
  unfold heights in Ez. cbn [frusta] in Ez, Es. destruct (rltb_spec (pl_z a) (pl_z b)); [|lra]. destruct (rltb_spec (pl_z b) (pl_z c)); [|lra].
  split; [done|]. by exists rext.
Qed.
Lemma stacked_three g a b c : pl_z a + g < pl_z b → pl_z b + g < pl_z c → stacked g [a; b; c].
Proof.
  intros H1 H2 x y Hxy. apply adjacent_cons_inv in Hxy as [[-> ->]|Hxy]; [by right|].
  apply adjacent_cons_inv in Hxy as [[-> ->]|Hxy]; [by right|]. by apply adjacent_one in Hxy.
Qed.
Lemma oriented_three a b c : pl_z a < pl_z c → oriented [a; b; c] = [a; b; c].
Proof. intros H. unfold oriented. cbn. destruct (rgtb_spec (pl_z a) (pl_z c)); [lra|done]. Qed.
Lemma construct_three_some inf w dphi a b c : pl_z a + kTolerance < pl_z b → pl_z b + kTolerance < pl_z c →
  ∃ pc, construct inf w dphi [a; b; c] = Some pc.
Proof.
  intros H1 H2. pose proof kTolerance_pos. eapply construct_some; [apply oriented_three; lra|by apply stacked_three|lra].
Qed.

(** * Thin sections *)
Definition thin_planes : list plane := [Plane 0 0 1; Plane (15 / 10000000000) 0 1; Plane 1 0 1].
Lemma thin_contains inf pc x y : construct inf no_wedge (2 * PI) thin_planes = Some pc →
  poly_contains UniversalCone pc (V3 x y (7 / 10000000000)) = Some true.
Proof.
  intros Hc. apply construct_three in Hc as [Ez [rext Es]]; [|unfold kTolerance; cbn; lra|unfold kTolerance; cbn; lra].
  unfold poly_contains, poly_kernel, section_index, nsections. rewrite Ez, Es. cbn [head pl_z mbind option_bind vz length scan_sections].
  unfold kTolerance. destruct (rltb_spec (7 / 10000000000 - / 1000000000) 0); [|lra]. cbn [mbind option_bind].
  destruct (rltb_spec (7 / 10000000000 + / 1000000000) 0); [lra|].
  destruct (rgeb_spec (7 / 10000000000 + / 1000000000) 0); [|lra].
  destruct (rleb_spec (7 / 10000000000 + / 1000000000) (15 / 10000000000)); [lra|]. cbn [andb].
  destruct (rgeb_spec (7 / 10000000000 + / 1000000000) (15 / 10000000000)); [|lra].
  destruct (rleb_spec (7 / 10000000000 + / 1000000000) 1); [|lra]. reflexivity.
Qed.

(** * Straight cylinders *)
Lemma line_const z1 r z2 z : line z1 r z2 r z = r.
Proof. unfold line. ring. Qed.
Lemma tilted_const z1 r z2 : tilted z1 r z2 r = / 10000000.
Proof. unfold tilted. replace ((r - r) / (z2 - z1)) with 0 by (unfold Rdiv; ring). rewrite Rmult_0_l, Rplus_0_r, sqrt_1. ring. Qed.
Lemma full_turn : checked_dphi (2 * PI) = 2 * PI.
Proof. unfold checked_dphi. destruct (rgeb_spec (2 * PI) (2 * PI - 5 / 10 * / 1000000000)); [done|lra]. Qed.
(** The tolerant kernel of a full cylinder. *)
Lemma cylinder_kernel r dz p : 0 < r → 0 < dz →
  cone_kernel UniversalCone true (mk_cone 0 r 0 r dz (2 * PI) no_wedge) p =
  if rgtb (Rabs (vz p)) (dz + / 10000000) then (rltb (Rabs (vz p)) (dz - / 10000000), true) else
  (rltb (Rabs (vz p)) (dz - / 10000000) && rltb (perp2 p) (minus_tol_sq true r (/ 10000000)),
   rgtb (perp2 p) (plus_tol_sq true r (/ 10000000))).
Proof.
  intros Hr Hz. rewrite cone_kernel_true by lra. cbn zeta. rewrite !line_const, !tilted_const. unfold kConeTolerance.
  assert (Hn : needs_rmin UniversalCone (mk_cone 0 r 0 r dz (2 * PI) no_wedge) = false).
  { unfold needs_rmin, mk_cone. cbn. destruct (rltb_spec 0 0); [lra|]. destruct (rgtb_spec 0 0); [lra|done]. }
  assert (Hp : needs_phi UniversalCone (mk_cone 0 r 0 r dz (2 * PI) no_wedge) = false).
  { unfold needs_phi, mk_cone. cbn. rewrite full_turn. destruct (rltb_spec (2 * PI) (2 * PI)); [lra|done]. }
  rewrite Hn, Hp. cbn [andb negb orb]. rewrite andb_true_r.
  destruct (rgtb (Rabs (vz p)) (dz + / 10000000)); [done|]. by destruct (rgtb (perp2 p) (plus_tol_sq true r (/ 10000000))).
Qed.

(** Two cylinders of the same radius on top of each other. *)
Definition two_cylinders : list plane := [Plane (-1) 0 1; Plane 0 0 1; Plane 1 0 1].
Lemma two_cylinders_sections inf pc : construct inf no_wedge (2 * PI) two_cylinders = Some pc →
  pc_zs pc = [-1; 0; 1] ∧ ∃ c1 c2,
  pc_sections pc = [Section_ (- / 2) (mk_cone 0 1 0 1 (/ 2) (2 * PI) no_wedge) c1; Section_ (/ 2) (mk_cone 0 1 0 1 (/ 2) (2 * PI) no_wedge) c2].
Proof.
  intros Hc. apply construct_three in Hc as [Ez [rext Es]]; [|unfold kTolerance; cbn; lra|unfold kTolerance; cbn; lra].
  split; [done|]. cbn in Es. rewrite Es. eexists _, _. f_equal; [|f_equal]; (f_equal; [lra|f_equal; lra]).
Qed.
Lemma two_cylinders_some inf : ∃ pc, construct inf no_wedge (2 * PI) two_cylinders = Some pc.
Proof. apply construct_three_some; unfold kTolerance; cbn; lra. Qed.
(** A point of the seam, just outside the lateral surface, is kInside. *)
Lemma seam_inside inf pc : construct inf no_wedge (2 * PI) two_cylinders = Some pc →
  poly_inside UniversalCone pc (V3 (1 + / 20000000) 0 0) = Some kInside.
Proof.
  intros Hc. destruct (two_cylinders_sections inf pc Hc) as (Ez & c1 & c2 & Es).
  unfold poly_inside, poly_kernel, section_index, nsections, section_kernel, get_section. rewrite Ez, Es. change (Z.of_nat (length _)) with 2%Z. cbn [head mbind option_bind vz scan_sections].
  unfold kTolerance. destruct (rltb_spec (0 - / 1000000000) (-1)); [lra|]. destruct (rgeb_spec (0 - / 1000000000) (-1)); [|lra].
  destruct (rleb_spec (0 - / 1000000000) 0); [|lra]. cbn [andb mbind option_bind].
  destruct (rltb_spec (0 + / 1000000000) (-1)); [lra|]. destruct (rgeb_spec (0 + / 1000000000) (-1)); [|lra].
  destruct (rleb_spec (0 + / 1000000000) 0); [lra|]. destruct (rgeb_spec (0 + / 1000000000) 0); [|lra].
  destruct (rleb_spec (0 + / 1000000000) 1); [|lra].
  cbv [andb orb negb mbind option_bind Z.add Z.sub Z.opp Z.ltb Z.leb Z.compare Z.eqb Z.pos_sub Pos.add Pos.succ Pos.compare Pos.compare_cont Pos.eqb Pos.pred_double Z.to_nat Pos.to_nat Pos.iter_op lookup list_lookup sec_solid sec_shift Init.Nat.add].
  unfold shifted, vsub. cbn [sec_shift vx vy vz]. rewrite !cylinder_kernel by lra. cbn [vz vx vy]. unfold perp2; cbn [vx vy].
  replace (Rabs (0 - - / 2)) with (/ 2) by (rewrite Rabs_pos_eq; lra). replace (Rabs (0 - / 2)) with (/ 2) by (rewrite Rabs_left; lra).
  unfold plus_tol_sq. destruct (rgtb_spec (/ 2) (/ 2 + / 10000000)); [lra|]. destruct (rltb_spec (/ 2) (/ 2 - / 10000000)); [lra|]. cbn [andb].
  repeat match goal with |- context [rgtb ?a ?b] => destruct (rgtb_spec a b) as [Hx|_]; [exfalso; unfold vsub in Hx; cbn in Hx; lra|] end. reflexivity.
Qed.
(** A point well inside, near a seam, is kSurface. *)
Lemma seam_surface inf pc : construct inf no_wedge (2 * PI) two_cylinders = Some pc →
  poly_inside UniversalCone pc (V3 0 0 (/ 20000000)) = Some kSurface.
Proof.
  intros Hc. destruct (two_cylinders_sections inf pc Hc) as (Ez & c1 & c2 & Es).
  unfold poly_inside, poly_kernel, section_index, nsections, section_kernel, get_section. rewrite Ez, Es. change (Z.of_nat (length _)) with 2%Z. cbn [head mbind option_bind vz scan_sections].
  unfold kTolerance. destruct (rltb_spec (/ 20000000 - / 1000000000) (-1)); [lra|]. destruct (rgeb_spec (/ 20000000 - / 1000000000) (-1)); [|lra].
  destruct (rleb_spec (/ 20000000 - / 1000000000) 0); [lra|]. destruct (rgeb_spec (/ 20000000 - / 1000000000) 0); [|lra].
  destruct (rleb_spec (/ 20000000 - / 1000000000) 1); [|lra]. cbn [andb mbind option_bind].
  destruct (rltb_spec (/ 20000000 + / 1000000000) (-1)); [lra|]. destruct (rgeb_spec (/ 20000000 + / 1000000000) (-1)); [|lra].
  destruct (rleb_spec (/ 20000000 + / 1000000000) 0); [lra|]. destruct (rgeb_spec (/ 20000000 + / 1000000000) 0); [|lra].
  destruct (rleb_spec (/ 20000000 + / 1000000000) 1); [|lra].
  cbv [andb orb negb mbind option_bind Z.add Z.sub Z.opp Z.ltb Z.leb Z.compare Z.eqb Z.pos_sub Pos.add Pos.succ Pos.compare Pos.compare_cont Pos.eqb Pos.pred_double Z.to_nat Pos.to_nat Pos.iter_op lookup list_lookup sec_solid sec_shift Init.Nat.add].
  unfold shifted, vsub. cbn [sec_shift vx vy vz]. rewrite !cylinder_kernel by lra. cbn [vz vx vy]. unfold perp2; cbn [vx vy].
  replace (Rabs (/ 20000000 - / 2)) with (/ 2 - / 20000000) by (rewrite Rabs_left; lra).
  unfold plus_tol_sq. destruct (rgtb_spec (/ 2 - / 20000000) (/ 2 + / 10000000)); [lra|]. destruct (rltb_spec (/ 2 - / 20000000) (/ 2 - / 10000000)); [lra|]. cbn [andb].
  repeat match goal with |- context [rgtb ?a ?b] => destruct (rgtb_spec a b) as [Hx|_]; [exfalso; unfold vsub in Hx; cbn in Hx; lra|] end. reflexivity.
Qed.

(** The SafetyToIn of a straight pipe from a point on its axis is about its inner radius. *)
Lemma pipe_safety m M dz p : 1 <= m < M → 0 < dz → vx p = 0 → vy p = 0 →
  m / 2 <= cone_safety_in UniversalCone (mk_cone m M m M dz (2 * PI) no_wedge) p.
Proof.
  intros Hm Hz Hx Hy. pose proof kTolerance_pos as Htol. unfold cone_safety_in. set (c := mk_cone m M m M dz (2 * PI) no_wedge).
  assert (Hn : needs_rmin UniversalCone c = true).
  { unfold needs_rmin, c, mk_cone. cbn. destruct (rltb_spec m 0); [lra|]. destruct (rgtb_spec m 0); [done|lra]. }
  assert (Hp : needs_phi UniversalCone c = false).
  { unfold needs_phi, c, mk_cone. cbn. rewrite full_turn. destruct (rltb_spec (2 * PI) (2 * PI)); [lra|done]. }
  rewrite Hn, Hp. cbn [negb orb].
  assert (Hp2 : perp2 p = 0) by (unfold perp2; rewrite Hx, Hy; ring).
  assert (Hrad : radius_at true c (vz p) = m).
  { unfold radius_at, c, mk_cone. cbn. destruct (rltb_spec m 0); [lra|]. destruct (reqb_spec m m); [done|lra]. }
  rewrite Hrad, Hp2.
  assert (Htolp : 0 < inner_tol c).
  { unfold inner_tol, sec_rmin. apply Rmult_lt_0_compat; [apply kConeTolerance_pos|]. apply sqrt_lt_R0.
    pose proof (Rle_0_sqr (tan_rmin c)) as Hs. unfold Rsqr in Hs. lra. }
  destruct (rgtb_spec 0 (plus_tol_sq true m (inner_tol c))) as [Hb|Hb]; [unfold plus_tol_sq in Hb; exfalso; nra|]. rewrite andb_false_r. cbn [andb].
  assert (Hin : m / 2 <= - to_conical true c p).
  { rewrite (to_inner m M m M dz (2 * PI) no_wedge) by lra. fold c. rewrite line_const.
    assert (Hrho : rho p = 0) by (unfold rho; rewrite Hx, Hy, Rmult_0_l, Rplus_0_r; apply sqrt_0).
    rewrite Hrho. unfold inv_sec_rmin, sec_rmin, tan_rmin, c, mk_cone. cbn. destruct (rltb_spec m 0); [lra|].
    replace ((m - m) * (5 / 10) / dz) with 0 by (field; lra). rewrite Rmult_0_l, Rplus_0_r, sqrt_1.
    unfold nonzero, kTiny. destruct (rltb_spec 1 0); [lra|].
    assert (Ht : 0 < / 10 ^ 30 <= 1).
    { split; [apply Rinv_0_lt_compat, pow_lt; lra|]. replace 1 with (/ 1) by lra. apply Rinv_le_contravar; [lra|]. apply pow_R1_Rle. lra. }
    assert (Hi : / 2 <= 1 / (1 + / 10 ^ 30)).
    { unfold Rdiv. rewrite Rmult_1_l. apply Rinv_le_contravar; lra. }
    nra. }
  set (lat := Rmax (- to_conical false c p) (- to_conical true c p)).
  assert (Hl : m / 2 <= lat) by (eapply Rle_trans; [exact Hin|apply Rmax_r]).
  set (s := Rmax (Rabs (vz p) - k_dz c) lat). assert (Hs : m / 2 <= s) by (eapply Rle_trans; [exact Hl|apply Rmax_r]).
  unfold flush. rewrite Rabs_pos_eq by lra. destruct (rltb_spec s kTolerance) as [Hx2|]; [|done]. unfold kTolerance in Hx2. lra.
Qed.

(** A wide disc below two thin pipes; from the axis of the upper pipe the disc is close, but the search to the left stops at
    the lower pipe. *)
Definition disc_and_pipes : list plane := [Plane 0 0 50; Plane 200 0 50; Plane 200 100 101; Plane 201 100 101; Plane 202 100 101].
Lemma disc_stacked : stacked (2 * kTolerance) disc_and_pipes.
Proof.
  intros x y Hxy. unfold kTolerance. apply adjacent_cons_inv in Hxy as [[-> ->]|Hxy]; [right; cbn; lra|].
  apply adjacent_cons_inv in Hxy as [[-> ->]|Hxy]; [by left|]. apply adjacent_cons_inv in Hxy as [[-> ->]|Hxy]; [right; cbn; lra|].
  apply adjacent_cons_inv in Hxy as [[-> ->]|Hxy]; [right; cbn; lra|]. by apply adjacent_one in Hxy.
Qed.
Lemma stacked_weaken g g' l : g' <= g → stacked g l → stacked g' l.
Proof. intros H Hs a b Hab. destruct (Hs a b Hab); [by left|right; lra]. Qed.
Lemma disc_oriented : oriented disc_and_pipes = disc_and_pipes.
Proof. unfold oriented. cbn. destruct (rgtb_spec 0 202); [lra|done]. Qed.
Lemma disc_some inf : ∃ pc, construct inf no_wedge (2 * PI) disc_and_pipes = Some pc.
Proof.
  pose proof kTolerance_pos. eapply construct_some; [apply disc_oriented|eapply stacked_weaken; [|apply disc_stacked]; lra|cbn; lra].
Qed.
Lemma disc_safety inf pc : construct inf no_wedge (2 * PI) disc_and_pipes = Some pc →
  ∃ r, poly_safety_in UniversalCone pc (V3 0 0 (2015 / 10)) = Some r ∧ 50 <= r.
Proof.
  intros Hc. pose proof kTolerance_pos as Htol.
  destruct (construct_built kTolerance inf no_wedge (2 * PI) disc_and_pipes pc) as (prev & rest & E & Hb);
    [lra|rewrite disc_oriented; eapply stacked_weaken; [|apply disc_stacked]; lra|done|].
  rewrite disc_oriented in E. injection E as <- <-. destruct (b_secs _ _ _ _ _ _ Hb) as [rext Es]. pose proof (b_zs _ _ _ _ _ _ Hb) as Ez.
  unfold heights in Ez. cbn [frusta pl_z] in Ez, Es.
  destruct (rltb_spec 0 200); [|lra]. destruct (rltb_spec 200 200); [lra|]. destruct (rltb_spec 200 201); [|lra]. destruct (rltb_spec 201 202); [|lra].
  cbn [fmap list_fmap pl_z fst snd] in Ez, Es.
  set (s0 := section_of rext (2 * PI) no_wedge (Plane 0 0 50, Plane 200 0 50)) in *.
  set (s1 := section_of rext (2 * PI) no_wedge (Plane 200 100 101, Plane 201 100 101)) in *.
  set (s2 := section_of rext (2 * PI) no_wedge (Plane 201 100 101, Plane 202 100 101)) in *.
  set (p := V3 0 0 (2015 / 10)).
  assert (H1 : 50 <= cone_safety_in UniversalCone (sec_solid s1) (shifted s1 p)).
  { change (sec_solid s1) with (mk_cone 100 101 100 101 ((201 - 200) / 2) (2 * PI) no_wedge).
    eapply Rle_trans; [|apply (pipe_safety 100 101 ((201 - 200) / 2) (shifted s1 p)); [lra|lra|cbn; lra|cbn; lra]]. lra. }
  assert (H2 : 50 <= cone_safety_in UniversalCone (sec_solid s2) (shifted s2 p)).
  { change (sec_solid s2) with (mk_cone 100 101 100 101 ((202 - 201) / 2) (2 * PI) no_wedge).
    eapply Rle_trans; [|apply (pipe_safety 100 101 ((202 - 201) / 2) (shifted s2 p)); [lra|lra|cbn; lra|cbn; lra]]. lra. }
  assert (H2' : cone_safety_in UniversalCone (sec_solid s2) (shifted s2 p) <= 101).
  { assert (Hq : part (λ _ _, True) (2 * PI) (Plane 201 100 101) (Plane 202 100 101) (V3 101 0 (2015 / 10))).
    { split; [|intros _; done]. split; [cbn; lra|]. split; [cbn; lra|]. split.
      - cbn [pl_z pl_rmax vz]. rewrite line_const. unfold rho. cbn. rewrite Rmult_0_l, Rplus_0_r, sqrt_square; lra.
      - intros _. cbn [pl_z pl_rmin vz]. rewrite line_const. unfold rho. cbn. rewrite Rmult_0_l, Rplus_0_r, sqrt_square; lra. }
    apply (shifted_region rext (2 * PI) no_wedge) in Hq; [|cbn; lra].
    eapply Rle_trans; [apply (cone_safety_in_le UniversalCone 100 101 100 101 ((202 - 201) / 2) (2 * PI) no_wedge (λ _ _, True)); [lra|lra|lra|done| |exact Hq]|].
    - split; [|done]. intros x y x' y' _. cbn. apply sqrt_pos.
    - fold s2. rewrite shifted_dist. unfold vdist, vmag, vsub, vdot, p. cbn.
      replace ((0 - 101) * (0 - 101) + (0 - 0) * (0 - 0) + (2015 / 10 - 2015 / 10) * (2015 / 10 - 2015 / 10)) with (101 * 101) by ring. rewrite sqrt_square; lra. }
  unfold poly_safety_in, section_index, get_section. rewrite Ez, Es. cbn [head mbind option_bind scan_sections]. change (vz p) with (2015 / 10).
  destruct (rltb_spec (2015 / 10) 0); [lra|]. destruct (rgeb_spec (2015 / 10) 0); [|lra]. destruct (rleb_spec (2015 / 10) 200); [lra|].
  destruct (rgeb_spec (2015 / 10) 200); [|lra]. destruct (rleb_spec (2015 / 10) 201); [lra|]. destruct (rgeb_spec (2015 / 10) 201); [|lra]. destruct (rleb_spec (2015 / 10) 202); [|lra].
  cbv [andb orb negb mbind option_bind Z.add Z.sub Z.opp Z.ltb Z.leb Z.compare Z.eqb Z.pos_sub Pos.add Pos.succ Pos.compare Pos.compare_cont Pos.eqb Pos.pred_double Z.to_nat Pos.to_nat Pos.iter_op lookup list_lookup Init.Nat.add].
  destruct (rltb_spec (cone_safety_in UniversalCone (sec_solid s2) (shifted s2 p)) kTolerance) as [Hx|_]; [unfold kTolerance in Hx; lra|].
  unfold both_ways. rewrite Ez, Es. cbn [Init.Nat.add lookup list_lookup mbind option_bind drop zip zip_with safety_loop Nat.eqb Init.Nat.sub take reverse rev_append].
  destruct (rgeb_spec (200 - 200) (cone_safety_in UniversalCone (sec_solid s2) (shifted s2 p))); [lra|].
  set (m := if rltb (cone_safety_in UniversalCone (sec_solid s1) (shifted s1 p)) (cone_safety_in UniversalCone (sec_solid s2) (shifted s2 p))
            then cone_safety_in UniversalCone (sec_solid s1) (shifted s1 p) else cone_safety_in UniversalCone (sec_solid s2) (shifted s2 p)).
  assert (Hm : 50 <= m <= 101).
  { unfold m. destruct (rltb_spec (cone_safety_in UniversalCone (sec_solid s1) (shifted s1 p)) (cone_safety_in UniversalCone (sec_solid s2) (shifted s2 p))); lra. }
  destruct (rgeb_spec (200 - 0) m); [|lra]. exists m. split; [done|lra].
Qed.
(** A pipe below a disc; from below the pipe only the pipe is asked. *)
Definition pipe_and_disc : list plane := [Plane 0 100 101; Plane 1 100 101; Plane 1 0 50; Plane 2 0 50].
Lemma pipe_stacked : stacked (2 * kTolerance) pipe_and_disc.
Proof.
  intros x y Hxy. unfold kTolerance. apply adjacent_cons_inv in Hxy as [[-> ->]|Hxy]; [right; cbn; lra|].
  apply adjacent_cons_inv in Hxy as [[-> ->]|Hxy]; [by left|]. apply adjacent_cons_inv in Hxy as [[-> ->]|Hxy]; [right; cbn; lra|].
  by apply adjacent_one in Hxy.
Qed.
Lemma pipe_oriented : oriented pipe_and_disc = pipe_and_disc.
Proof. unfold oriented. cbn. destruct (rgtb_spec 0 2); [lra|done]. Qed.
Lemma pipe_some inf : ∃ pc, construct inf no_wedge (2 * PI) pipe_and_disc = Some pc.
Proof.
  pose proof kTolerance_pos. eapply construct_some; [apply pipe_oriented|eapply stacked_weaken; [|apply pipe_stacked]; lra|cbn; lra].
Qed.
Lemma pipe_below inf pc : construct inf no_wedge (2 * PI) pipe_and_disc = Some pc →
  ∃ r, poly_safety_in UniversalCone pc (V3 0 0 (-1)) = Some r ∧ 50 <= r.
Proof.
  intros Hc. pose proof kTolerance_pos as Htol.
  destruct (construct_built kTolerance inf no_wedge (2 * PI) pipe_and_disc pc) as (prev & rest & E & Hb);
    [lra|rewrite pipe_oriented; eapply stacked_weaken; [|apply pipe_stacked]; lra|done|].
  rewrite pipe_oriented in E. injection E as <- <-. destruct (b_secs _ _ _ _ _ _ Hb) as [rext Es]. pose proof (b_zs _ _ _ _ _ _ Hb) as Ez.
  unfold heights in Ez. cbn [frusta pl_z] in Ez, Es.
  destruct (rltb_spec 0 1); [|lra]. destruct (rltb_spec 1 1); [lra|]. destruct (rltb_spec 1 2); [|lra].
  cbn [fmap list_fmap pl_z fst snd] in Ez, Es.
  set (s0 := section_of rext (2 * PI) no_wedge (Plane 0 100 101, Plane 1 100 101)) in *.
  unfold poly_safety_in, section_index, get_section. rewrite Ez, Es. cbn [head mbind option_bind vz].
  destruct (rltb_spec (-1) 0); [|lra]. cbn [mbind option_bind Z.eqb Pos.eqb Z.ltb Z.compare Z.to_nat lookup list_lookup].
  eexists; split; [reflexivity|].
  change (sec_solid s0) with (mk_cone 100 101 100 101 ((1 - 0) / 2) (2 * PI) no_wedge).
  eapply Rle_trans; [|apply (pipe_safety 100 101 ((1 - 0) / 2)); [lra|lra|cbn; lra|cbn; lra]]. lra.
Qed.

(** * The tip of a conical hole *)
Lemma tip_disagrees : ∃ c p, c = mk_cone 0 5 3 5 2 (2 * PI) no_wedge ∧
  cone_contains UniversalCone c p = true ∧ cone_inside UniversalCone c p = kOutside.
Proof.
  set (h := 125 / 1000000000). assert (Hh : tilted (- (2)) 0 2 3 = h).
  { unfold tilted, h. replace ((3 - 0) / (2 - - (2))) with (3 / 4) by field.
    replace (1 + 3 / 4 * (3 / 4)) with ((5 / 4) * (5 / 4)) by field. rewrite sqrt_square by lra. lra. }
  (* rmin = h / 2 at height z, rho = 0.7 h *)
  set (z := -2 + 2 / 3 * h). set (r := 7 / 10 * h). exists (mk_cone 0 5 3 5 2 (2 * PI) no_wedge), (V3 r 0 z). split; [done|].
  assert (Hl : line (- (2)) 0 2 3 z = h / 2) by (unfold line, z; field).
  assert (Hrho : rho (V3 r 0 z) = r).
  { unfold rho. cbn. rewrite Rmult_0_l, Rplus_0_r. apply sqrt_square. unfold r, h. lra. }
  split.
  - apply (cone_contains_section UniversalCone 0 5 3 5 2 (2 * PI) no_wedge (λ _ _, True)); [lra|lra|lra|done| |].
    + intros x y. cbn. done.
    + split; [|intros _; done]. split; [cbn; unfold z, h; lra|]. split.
      * cbn [vz]. rewrite line_const, Hrho. unfold r, h. lra.
      * intros _. cbn [vz]. rewrite Hl, Hrho. unfold r, h. lra.
  - unfold cone_inside. rewrite cone_kernel_true by lra. cbn zeta. cbn [vz]. rewrite line_const, tilted_const, Hl, Hh. unfold kConeTolerance.
    assert (Hn : needs_rmin UniversalCone (mk_cone 0 5 3 5 2 (2 * PI) no_wedge) = true).
    { unfold needs_rmin, mk_cone. cbn. destruct (rltb_spec 0 0); [lra|]. destruct (rltb_spec 3 0); [lra|]. destruct (rgtb_spec 3 0); [apply orb_true_r|lra]. }
    rewrite Hn. replace (Rabs z) with (2 - 2 / 3 * h) by (unfold z; rewrite Rabs_left; [lra|unfold h; lra]).
    destruct (rgtb_spec (2 - 2 / 3 * h) (2 + / 10000000)) as [Hx|_]; [unfold h in Hx; lra|].
    replace (perp2 (V3 r 0 z)) with (r * r) by (unfold perp2; cbn; ring).
    destruct (rgtb_spec (r * r) (plus_tol_sq true 5 (/ 10000000))) as [Hx|_]; [unfold plus_tol_sq, r, h in Hx; lra|].
    destruct (rleb_spec (r * r) (minus_tol_sq true (h / 2) h)) as [_|Hx].
    2: { exfalso. apply Hx. unfold minus_tol_sq. rewrite Rabs_left; unfold r, h; lra. }
    cbn [andb negb orb]. destruct (rltb_spec (2 - 2 / 3 * h) (2 - / 10000000)) as [Hx|_]; [unfold h in Hx; lra|]. reflexivity.
Qed.
(** * Two planes away from the origin *)
Lemma two_planes_off inf : ∃ c, maker inf no_wedge (2 * PI) [Plane 10 0 1; Plane 12 0 1] = Some (MadeCone c) ∧
  cone_contains UniversalCone c (V3 0 0 11) = false ∧ solid (2 * PI) (λ _ _, True) [Plane 10 0 1; Plane 12 0 1] (V3 0 0 11).
Proof.
  eexists; split; [reflexivity|]. split.
  - unfold cone_contains, cone_kernel. cbn [plus_tol vz pl_z]. change (k_dz (mk_cone _ _ _ _ ?d _ _)) with d.
    match goal with |- context [rgtb (Rabs 11) ?d] => replace d with 1 end.
    + rewrite Rabs_pos_eq by lra. destruct (rgtb_spec 11 1); [done|lra].
    + cbn. rewrite Rabs_pos_eq by lra. lra.
  - split; [|intros _; done]. exists (Plane 10 0 1), (Plane 12 0 1). split; [apply adjacent_head|]. split; [cbn; lra|]. split; [cbn; lra|].
    split; [|cbn; lra]. cbn [pl_z pl_rmax vz]. rewrite line_const. unfold rho. cbn. rewrite Rmult_0_l, Rplus_0_r, sqrt_0. lra.
Qed.
(** * Convexity *)
Definition waisted : list plane := [Plane 0 0 1; Plane 1 0 1; Plane 1 0 1; Plane 2 0 5].
Lemma waisted_detect inf : 0 <= inf → ∃ pc, construct inf no_wedge (2 * PI) waisted = Some pc ∧ detect_convexity pc = true.
Proof.
  intros Hinf. pose proof kTolerance_pos as Htol. pose proof PI2_1 as HPI.
  assert (Hst : stacked kTolerance waisted).
  { intros x y Hxy. unfold kTolerance. apply adjacent_cons_inv in Hxy as [[-> ->]|Hxy]; [right; cbn; lra|].
    apply adjacent_cons_inv in Hxy as [[-> ->]|Hxy]; [by left|]. apply adjacent_cons_inv in Hxy as [[-> ->]|Hxy]; [right; cbn; lra|].
    by apply adjacent_one in Hxy. }
  assert (Ho : oriented waisted = waisted) by (unfold oriented; cbn; destruct (rgtb_spec 0 2); [lra|done]).
  assert (Hr : reduced waisted = [(Plane 0 0 1, Plane 1 0 1)]).
  { unfold reduced, doubled, waisted. cbn [doubled_rest pl_z pl_rmax]. destruct (reqb_spec 1 1) as [_|]; [|lra]. destruct (reqb_spec 1 2); [lra|].
    cbn [negb orb app]. unfold evened. cbn [length Nat.odd Nat.even negb last app paired pl_z].
    destruct (reqb_spec 0 1); [lra|]. destruct (reqb_spec 1 1); [|lra]. destruct (reqb_spec 2 2); [|lra]. done. }
  unfold construct, init. rewrite Ho. unfold waisted at 1. fold waisted. rewrite Hr.
  assert (Hp : negb (rltb (pl_z (Plane 1 0 1)) (pl_z (Plane 0 0 1))) = true) by (cbn; destruct (rltb_spec 1 0); [lra|done]).
  rewrite Hp. cbn [blank pc_zs pc_sections app]. rewrite (init_loop_frusta kTolerance); [|lra|exact Hst|done]. cbn [mbind option_bind].
  eexists; split; [reflexivity|]. unfold detect_convexity. cbn [pc_convexity pc_equal_rmax pc_dphi pc_continuity andb flat no_hole forallb mbind list_bind app fst snd pl_rmin pl_rmax tail equal_rmax].
  destruct (reqb_spec 0 0); [|lra]. destruct (reqb_spec 1 1); [|lra]. cbn [andb].
  unfold checked_delta. destruct (rleb_spec (2 * PI) 0); [lra|]. destruct (rgtb_spec (2 * PI) (2 * PI - kTolerance)); [|lra]. cbn [orb].
  destruct (rleb_spec (2 * PI) PI); [lra|]. destruct (reqb_spec (2 * PI) (2 * PI)); [done|lra].
Qed.
Lemma waisted_not_convex : ¬ convex (solid (2 * PI) (λ _ _, True) waisted).
Proof.
  intros Hc. assert (H1 : solid (2 * PI) (λ _ _, True) waisted (V3 1 0 0)).
  { split; [|intros _; done]. exists (Plane 0 0 1), (Plane 1 0 1). split; [apply adjacent_head|]. split; [cbn; lra|]. split; [cbn; lra|].
    split; [|cbn; lra]. cbn [pl_z pl_rmax vz]. rewrite line_const. unfold rho. cbn. rewrite Rmult_0_l, Rplus_0_r, sqrt_square; lra. }
  assert (H2 : solid (2 * PI) (λ _ _, True) waisted (V3 5 0 2)).
  { split; [|intros _; done]. exists (Plane 1 0 1), (Plane 2 0 5). split; [apply adjacent_cons, adjacent_cons, adjacent_head|]. split; [cbn; lra|]. split; [cbn; lra|].
    split; [|cbn; lra]. cbn [pl_z pl_rmax vz]. unfold line, rho. cbn. rewrite Rmult_0_l, Rplus_0_r, sqrt_square; lra. }
  destruct (Hc _ _ (1 / 2) H1 H2 ltac:(lra)) as [(a & b & Hab & Hlt & (Hz & Hr & _)) _].
  assert (Em : vadd (vscale (1 - 1 / 2) (V3 1 0 0)) (vscale (1 / 2) (V3 5 0 2)) = V3 3 0 1) by (apply v3_eq; cbn; lra).
  rewrite Em in Hz, Hr. assert (E3 : rho (V3 3 0 1) = 3) by (unfold rho; cbn; rewrite Rmult_0_l, Rplus_0_r; apply sqrt_square; lra).
  rewrite E3 in Hr. cbn [vz] in Hr, Hz.
  apply adjacent_cons_inv in Hab as [[-> ->]|Hab]; [cbn [pl_z pl_rmax] in Hr; rewrite line_const in Hr; lra|].
  apply adjacent_cons_inv in Hab as [[-> ->]|Hab]; [cbn in Hlt; lra|].
  apply adjacent_cons_inv in Hab as [[-> ->]|Hab]; [cbn [pl_z pl_rmax] in Hr; unfold line in Hr; lra|]. by apply adjacent_one in Hab.
Qed.
(** Three planes at the same height make the list of CheckContinuity empty. *)
Lemma triple_undefined inf : construct inf no_wedge (2 * PI) [Plane 0 0 1; Plane 0 0 1; Plane 0 0 1; Plane 1 0 1] = None.
Proof.
  unfold construct, init, oriented. cbn [head last pl_z]. destruct (rgtb_spec 0 1); [lra|].
  assert (Hr : reduced [Plane 0 0 1; Plane 0 0 1; Plane 0 0 1; Plane 1 0 1] = []).
  { unfold reduced, doubled. cbn [doubled_rest pl_z pl_rmax]. destruct (reqb_spec 0 0); [|lra]. destruct (reqb_spec 1 1); [|lra]. destruct (reqb_spec 0 1); [lra|].
    cbn [negb orb app]. unfold evened. cbn [length Nat.odd Nat.even negb last app paired pl_z].
    destruct (reqb_spec 0 0); [|lra]. destruct (reqb_spec 1 1); [|lra]. done. }
  by rewrite Hr.
Qed.
