(** C90: measures, samples, mesh, normals, convexity and SetDz of cut tubes. *)
From Coq Require Import Reals Lra Lia Bool ZArith Psatz.
From stdpp Require Import base list option numbers tactics.
From Verif Require Import Real3 AABBModel BoxModel PlanesModel PlanesProofs TetModel WedgeSpec TrdModel PolyconeSpec ConeSpec ConeProofs TubeModel TubeSpec TubeProofs PropTrd3 PropTube PropTube2 PropTube3 PropTube4 PropTube5 CutTubeModel CutTubeSpec PropCutTube.
Import stdpp.list.
Local Open Scope R_scope.

Section Measure.
Variables inf m M Z s d : R.
Variables b t : v3.
Hypothesis HI : 0 < inf.
Hypothesis Hm : 0 <= m < M.
Hypothesis Hd : 0 < d <= 2 * PI.
Hypothesis Ub : vdot b b = 1.
Hypothesis Ut : vdot t t = 1.
Hypothesis Hb : vz b < 0.
Hypothesis Ht : 0 < vz t.
Let c := cut_tube inf m M Z s d b t.
(** The heights of the planes over the point at the radius [r] and the angle [phi], and the height between them. *)
Definition above (r phi : R) : R := roof t Z (r * cos phi) (r * sin phi).
Definition below (r phi : R) : R := roof b (- Z) (r * cos phi) (r * sin phi).
Definition tall (r phi : R) : R := above r phi - below r phi.
(** ZlimitTop and ZlimitBottom. *)
Theorem C90_limits r phi : z_top c r phi = above r phi ∧ z_bottom c r phi = below r phi.
Proof using Hb Ht. unfold z_top, z_bottom, above, below, roof, c, cut_tube. cbn. split; field; lra. Qed.
Let A := vx t / vz t - vx b / vz b.
Let B := vy t / vz t - vy b / vz b.
Lemma tall_eq r phi : tall r phi = 2 * Z - r * (A * cos phi + B * sin phi).
Proof using Hb Ht. unfold tall, above, below, roof, A, B. field. lra. Qed.
Let Q := A * (sin (s + d) - sin s) - B * (cos (s + d) - cos s).
Lemma c_parts : ct_tube c = tb m M inf s d.
Proof using Hm. unfold c, cut_tube. cbn. apply tube_struct_eq. lra. Qed.
Lemma lateral_eq r : ct_lateral c r = 2 * r * Z * d - r * r * Q.
Proof using Hm. unfold ct_lateral. rewrite c_parts. unfold c, cut_tube, Q, A, B. cbn. ring. Qed.
(** The area of a wall: the height between the planes, summed over the arc. *)
Theorem C90_lateral r : ∃ H : R → R, (∀ phi, derivable_pt_lim H phi (tall r phi * r)) ∧ ct_lateral c r = H (s + d) - H s.
Proof using Hm Hb Ht.
  exists (λ phi, 2 * r * Z * phi - r * r * (A * sin phi - B * cos phi)). split; [|rewrite lateral_eq; unfold Q; ring].
  intros phi. rewrite tall_eq. replace ((2 * Z - r * (A * cos phi + B * sin phi)) * r) with (2 * r * Z * 1 - r * r * (A * cos phi - B * - sin phi)) by ring.
  apply (derivable_pt_lim_minus (λ x, 2 * r * Z * x) (λ x, r * r * (A * sin x - B * cos x))).
  - apply (derivable_pt_lim_scal id). apply derivable_pt_lim_id.
  - apply (derivable_pt_lim_scal (λ x, A * sin x - B * cos x)). apply (derivable_pt_lim_minus (λ x, A * sin x) (λ x, B * cos x)); [apply (derivable_pt_lim_scal sin); apply derivable_pt_lim_sin|apply (derivable_pt_lim_scal cos); apply derivable_pt_lim_cos].
Qed.
(** Capacity: the walls, summed over the radius. *)
Theorem C90_capacity : ∃ F : R → R, (∀ r, derivable_pt_lim F r (ct_lateral c r)) ∧ ct_volume c = F M - F m.
Proof using Hm Hb Ht.
  exists (λ r, Z * d * (r * r) - Q / 3 * (r * (r * r))). split.
  - intros r. rewrite lateral_eq. replace (2 * r * Z * d - r * r * Q) with (Z * d * (1 * r + r * 1) - Q / 3 * (1 * (r * r) + r * (1 * r + r * 1))) by field. assert (E : derivable_pt_lim (λ r, r * r) r (1 * r + r * 1)) by (apply (derivable_pt_lim_mult id id); apply derivable_pt_lim_id).
    apply (derivable_pt_lim_minus (λ r, Z * d * (r * r)) (λ r, Q / 3 * (r * (r * r)))); [by apply (derivable_pt_lim_scal (λ r, r * r))|]. apply (derivable_pt_lim_scal (λ r, r * (r * r))). apply (derivable_pt_lim_mult id (λ r, r * r)); [apply derivable_pt_lim_id|done].
  - unfold ct_volume. cbv zeta. rewrite c_parts. unfold c, cut_tube, Q, A, B. cbn. field. lra.
Qed.
Lemma stretch n : vdot n n = 1 → vz n ≠ 0 → R_sqrt.sqrt (1 + vx n / vz n * (vx n / vz n) + vy n / vz n * (vy n / vz n)) = / Rabs (vz n).
Proof using. intros N NZ. replace (1 + vx n / vz n * (vx n / vz n) + vy n / vz n * (vy n / vz n)) with (/ vz n * / vz n) by (replace (/ vz n * / vz n) with (vdot n n / (vz n * vz n)) by (rewrite N; field; done); unfold vdot; field; done). rewrite <- Rabs_inv. apply sqrt_Rsqr_abs. Qed.
(** The lids: the area of the ring, stretched by the slope of the plane. *)
Theorem C90_lids : let slope n := R_sqrt.sqrt (1 + vx n / vz n * (vx n / vz n) + vy n / vz n * (vy n / vz n)) in ∃ F : R → R,
  (∀ r, derivable_pt_lim F r (r * d)) ∧ ct_top c = slope t * (F M - F m) ∧ ct_bottom c = slope b * (F M - F m).
Proof using Hm Hb Ht Ub Ut.
  cbv zeta. exists (λ r, d / 2 * (r * r)). rewrite (stretch t), (stretch b) by (done || lra). rewrite (Rabs_pos_eq (vz t)), (Rabs_left (vz b)) by lra. split; [|unfold ct_top, ct_bottom; rewrite c_parts; unfold c, cut_tube; cbn; split; field; lra].
  intros r. replace (r * d) with (d / 2 * (1 * r + r * 1)) by field. apply (derivable_pt_lim_scal (λ r, r * r)). apply (derivable_pt_lim_mult id id); apply derivable_pt_lim_id.
Qed.
(** The sides: none for a full turn, otherwise the height summed over the radius. *)
Theorem C90_sides phi : (d = 2 * PI → ct_phi c phi = 0) ∧ (d < 2 * PI → ∃ F : R → R, (∀ r, derivable_pt_lim F r (tall r phi)) ∧ ct_phi c phi = F M - F m).
Proof using Hm Hb Ht.
  unfold ct_phi. rewrite c_parts. cbn [tb tb_dphi tb_rmax tb_rmin]. destruct (reqb_spec d (2 * PI)) as [E|E]; (split; [intros; try done; lra|]); [lra|]. intros _. exists (λ r, 2 * Z * r - (A * cos phi + B * sin phi) / 2 * (r * r)). split.
  - intros r. rewrite tall_eq. replace (2 * Z - r * (A * cos phi + B * sin phi)) with (2 * Z * 1 - (A * cos phi + B * sin phi) / 2 * (1 * r + r * 1)) by field. apply (derivable_pt_lim_minus (λ r, 2 * Z * r) (λ r, (A * cos phi + B * sin phi) / 2 * (r * r))); [apply (derivable_pt_lim_scal id); apply derivable_pt_lim_id|]. apply (derivable_pt_lim_scal (λ r, r * r)). apply (derivable_pt_lim_mult id id); apply derivable_pt_lim_id.
  - assert (TT : ∀ r, z_top c r phi - z_bottom c r phi = 2 * Z - r * (A * cos phi + B * sin phi)). { intros r. destruct (C90_limits r phi) as [-> ->]. apply tall_eq. } rewrite !TT. field.
Qed.
(** SurfaceArea: lids, walls and sides. *)
Theorem C90_area : ct_area c = ct_top c + ct_bottom c + (ct_lateral c m + ct_lateral c M) + (ct_phi c s + ct_phi c (s + d)).
Proof using Hm. unfold ct_area. rewrite c_parts. cbn [tb tb_rmin tb_rmax tb_sphi tb_dphi]. ring. Qed.
(** The pieces SamplePointOnSurface chooses from. *)
Definition cut_piece (i : nat) (p : v3) : Prop :=
  match i with
  | 0%nat => vz p = roof b (- Z) (vx p) (vy p) ∧ m <= rho p <= M ∧ sector s d (vx p) (vy p)
  | 1%nat => vz p = roof t Z (vx p) (vy p) ∧ m <= rho p <= M ∧ sector s d (vx p) (vy p)
  | 2%nat => roof b (- Z) (vx p) (vy p) <= vz p <= roof t Z (vx p) (vy p) ∧ rho p = M ∧ sector s d (vx p) (vy p)
  | 3%nat => roof b (- Z) (vx p) (vy p) <= vz p <= roof t Z (vx p) (vy p) ∧ rho p = m ∧ sector s d (vx p) (vy p)
  | 4%nat => roof b (- Z) (vx p) (vy p) <= vz p <= roof t Z (vx p) (vy p) ∧ m <= rho p <= M ∧ half_line s (vx p) (vy p)
  | _ => roof b (- Z) (vx p) (vy p) <= vz p <= roof t Z (vx p) (vy p) ∧ m <= rho p <= M ∧ half_line (s + d) (vx p) (vy p)
  end.
(** The planes do not cross within the tube. *)
Hypothesis Apart : ∀ x y, R_sqrt.sqrt (x * x + y * y) <= M → roof b (- Z) x y < roof t Z x y.
Theorem C90_sample r p i : pick (r * foldl Rplus 0 (ct_areas c)) (ct_areas c) = Some i → (i < 6)%nat →
  (∃ u v w, 0 <= u <= 1 ∧ 0 <= v <= 1 ∧ 0 <= w <= 1 ∧ ct_sample c r u v w = Some p) ↔ cut_piece i p.
Proof using Hm Hd Hb Ht Apart.
  intros E Hi. unfold ct_sample. rewrite E. rewrite c_parts. cbn [tb tb_rmin tb_rmax tb_sphi tb_dphi]. cbv zeta.
  assert (AP : ∀ r phi, 0 <= r <= M → below r phi < above r phi). { intros r0 phi R0. apply Apart. pose proof (rho_polar r0 phi 0 ltac:(lra)) as RP. unfold rho in RP. cbn [vx vy] in RP. rewrite RP. lra. }
  assert (SE : ∀ r phi, 0 <= r → s <= phi <= s + d → sector s d (r * cos phi) (r * sin phi)) by (intros r0 phi R0 PH; exists phi; split; [done|]; exists r0; done).
  assert (HL : ∀ r phi, 0 <= r → half_line phi (r * cos phi) (r * sin phi)) by (intros r0 phi R0; exists r0; done).
  split.
  - intros (u & v & w & U1 & U2 & U3 & G). injection G as <-. assert (A1 : m <= m + (M - m) * u <= M) by nra. set (rv := m + (M - m) * u) in *. clearbody rv.
    assert (A2 : s <= s + (s + d - s) * v <= s + d) by nra. set (pv := s + (s + d - s) * v) in *. clearbody pv.
    assert (BT : ∀ r phi, 0 <= r <= M → below r phi <= z_bottom c r phi + (z_top c r phi - z_bottom c r phi) * w <= above r phi). { intros r0 phi R0. destruct (C90_limits r0 phi) as [-> ->]. specialize (AP r0 phi R0). nra. }
    assert (LB := λ r phi, proj2 (C90_limits r phi)). assert (LT := λ r phi, proj1 (C90_limits r phi)).
    do 6 (destruct i as [|i]; [unfold cut_piece; cbn [vx vy vz]; rewrite rho_polar by lra; (split; [first [apply LB|apply LT|apply BT; lra]|split; [lra|first [apply SE; lra|apply HL; lra]]])|]). lia.
  - intros HP. destruct p as [x y z].
    assert (SQ : sector s d x y → ∃ phi, s <= phi <= s + d ∧ x = rho (V3 x y z) * cos phi ∧ y = rho (V3 x y z) * sin phi). { intros (phi & PH & r0 & R0 & -> & ->). exists phi. split; [done|]. rewrite rho_polar by done. done. }
    assert (HQ : ∀ phi, half_line phi x y → x = rho (V3 x y z) * cos phi ∧ y = rho (V3 x y z) * sin phi) by (intros phi (r0 & R0 & -> & ->); rewrite rho_polar by done; done).
    assert (WW : ∀ r phi, 0 <= r <= M → x = r * cos phi → y = r * sin phi → roof b (- Z) x y <= z <= roof t Z x y → ∃ w, 0 <= w <= 1 ∧ V3 (r * cos phi) (r * sin phi) (z_bottom c r phi + (z_top c r phi - z_bottom c r phi) * w) = V3 x y z).
    { intros r0 phi R0 Ex Ey Hz. destruct (C90_limits r0 phi) as [-> ->]. specialize (AP r0 phi R0). unfold above, below in *. rewrite <- Ex, <- Ey in *. destruct (between_share _ _ z AP Hz) as (w & W1 & W2). exists w. split; [done|]. by rewrite W2. }
    assert (RR := rho_nonneg (V3 x y z)). set (rr := rho (V3 x y z)) in *.
    destruct i as [|[|[|[|[|i]]]]]; unfold cut_piece in HP; cbn [vx vy vz] in HP; fold rr in HP; destruct HP as (H1 & H2 & H3).
    + destruct (SQ H3) as (phi & PH & Ex & Ey). destruct (between_share m M rr ltac:(lra) H2) as (u & V1 & W1). destruct (between_share s (s + d) phi ltac:(lra) PH) as (v & V2 & W2). exists u, v, 0. split; [done|]. split; [done|]. split; [lra|]. rewrite W1, W2, (proj2 (C90_limits rr phi)). unfold below. rewrite <- Ex, <- Ey, <- H1. done.
    + destruct (SQ H3) as (phi & PH & Ex & Ey). destruct (between_share m M rr ltac:(lra) H2) as (u & V1 & W1). destruct (between_share s (s + d) phi ltac:(lra) PH) as (v & V2 & W2). exists u, v, 0. split; [done|]. split; [done|]. split; [lra|]. rewrite W1, W2, (proj1 (C90_limits rr phi)). unfold above. rewrite <- Ex, <- Ey, <- H1. done.
    + destruct (SQ H3) as (phi & PH & Ex & Ey). destruct (between_share s (s + d) phi ltac:(lra) PH) as (v & V2 & W2). rewrite H2 in Ex, Ey. destruct (WW M phi ltac:(lra) Ex Ey H1) as (w & V3 & W3). exists 0, v, w. split; [lra|]. split; [done|]. split; [done|]. rewrite W2, W3. done.
    + destruct (SQ H3) as (phi & PH & Ex & Ey). destruct (between_share s (s + d) phi ltac:(lra) PH) as (v & V2 & W2). rewrite H2 in Ex, Ey. destruct (WW m phi ltac:(lra) Ex Ey H1) as (w & V3 & W3). exists 0, v, w. split; [lra|]. split; [done|]. split; [done|]. rewrite W2, W3. done.
    + destruct (HQ _ H3) as (Ex & Ey). destruct (between_share m M rr ltac:(lra) H2) as (u & V1 & W1). destruct (WW rr s ltac:(lra) Ex Ey H1) as (w & V3 & W3). exists u, 0, w. split; [done|]. split; [lra|]. split; [done|]. rewrite W1, W3. done.
    + destruct i; [|lia]. destruct (HQ _ H3) as (Ex & Ey). destruct (between_share m M rr ltac:(lra) H2) as (u & V1 & W1). destruct (WW rr (s + d) ltac:(lra) Ex Ey H1) as (w & V3 & W3). exists u, 0, w. split; [done|]. split; [lra|]. split; [done|]. rewrite W1, W3. done.
Qed.
(** Each piece lies on the cut tube. *)
Theorem C90_piece i p : (i < 6)%nat → cut_piece i p → cut_closed m M Z s d b t p.
Proof using Hm Hd Apart.
  intros Hi HP. assert (LS : ∀ phi, s <= phi <= s + d → half_line phi (vx p) (vy p) → sector s d (vx p) (vy p)) by (intros phi H1 H2; exists phi; done). assert (AP : rho p <= M → roof b (- Z) (vx p) (vy p) < roof t Z (vx p) (vy p)) by (intros RP; apply Apart; exact RP).
  destruct i as [|[|[|[|[|[|i]]]]]]; try lia; unfold cut_piece in HP; destruct HP as (H1 & H2 & H3).
  - specialize (AP ltac:(lra)). split; [lra|done].
  - specialize (AP ltac:(lra)). split; [lra|done].
  - split; [done|]. split; [lra|done].
  - split; [done|]. split; [lra|done].
  - split; [done|]. split; [done|]. intros _. apply (LS s); [lra|done].
  - split; [done|]. split; [done|]. intros _. apply (LS (s + d)); [lra|done].
Qed.
End Measure.
Print Assumptions C90_limits.
Print Assumptions C90_lateral.
Print Assumptions C90_capacity.
Print Assumptions C90_lids.
Print Assumptions C90_sides.
Print Assumptions C90_area.
Print Assumptions C90_sample.
Print Assumptions C90_piece.

Section Shape.
Variables inf m M Z s d : R.
Variables b t : v3.
Hypothesis HI : 0 < inf.
Hypothesis Hm : 0 <= m < M.
Hypothesis Hd : 0 < d <= 2 * PI.
Hypothesis Ub : vdot b b = 1.
Hypothesis Ut : vdot t t = 1.
Hypothesis Hb : vz b < 0.
Hypothesis Ht : 0 < vz t.
Let c := cut_tube inf m M Z s d b t.
(** DetectConvexity: tubes called convex are. *)
Theorem C90_convex : Z + M / vz t <= inf → Z - M / vz b <= inf → ct_convex c = true → convex (cut_closed m M Z s d b t).
Proof using HI Hm Hd Ub Ut Hb Ht.
  intros F1 F2 H. assert (CT : tube_convex (tube_struct m M inf s d) = true) by exact H. apply (C85_convex m M inf s d Hm HI Hd) in CT. intros p q u P1 P2 U.
  assert (TC : ∀ q, cut_closed m M Z s d b t q → tube_closed m M inf s d q). { intros q' Q. pose proof (closed_low m M Z s d b t Hm Ub Ut Hb Ht q' Q) as L. destruct Q as (_ & Q). split; [apply Rabs_le; lra|done]. }
  destruct (CT p q u (TC _ P1) (TC _ P2) U) as (_ & K). split; [|done]. destruct P1 as ((A1 & A2) & _). destruct P2 as ((B1 & B2) & _). unfold roof in *. cbn [vadd vscale vx vy vz].
  replace ((vx b * ((1 - u) * vx p + u * vx q) + vy b * ((1 - u) * vy p + u * vy q)) / vz b) with ((1 - u) * ((vx b * vx p + vy b * vy p) / vz b) + u * ((vx b * vx q + vy b * vy q) / vz b)) by (field; lra).
  replace ((vx t * ((1 - u) * vx p + u * vx q) + vy t * ((1 - u) * vy p + u * vy q)) / vz t) with ((1 - u) * ((vx t * vx p + vy t * vy p) / vz t) + u * ((vx t * vx q + vy t * vy q) / vz t)) by (field; lra).
  set (a1 := (vx b * vx p + vy b * vy p) / vz b) in *. set (a2 := (vx b * vx q + vy b * vy q) / vz b) in *. set (a3 := (vx t * vx p + vy t * vy p) / vz t) in *. set (a4 := (vx t * vx q + vy t * vy q) / vz t) in *. clearbody a1 a2 a3 a4. clear - U A1 A2 B1 B2. split; nra.
Qed.
(** CreateMesh3D: how far its vertices are off the planes. *)
Theorem C90_mesh n i r : over t Z (ct_vertex c n i true r) = Z * (1 - vz t) ∧ over b (- Z) (ct_vertex c n i false r) = Z * (1 + vz b).
Proof using Hb Ht. unfold ct_vertex, over, vdot. cbv zeta. unfold c, cut_tube. cbn [ct_dz ct_upper ct_lower pl_n vsub vx vy vz]. split; field; lra. Qed.
(** SetDz cuts the tube by planes across the axis; z() and the tilted planes stay. *)
Theorem C90_set_dz v p : 0 < v → (ct_contains (ct_set_dz c v) p = true ↔ cut_solid m M Z s d b t p ∧ Rabs (vz p) <= v) ∧ ct_dz (ct_set_dz c v) = Z ∧ ct_lower (ct_set_dz c v) = ct_lower c ∧ ct_upper (ct_set_dz c v) = ct_upper c.
Proof using HI Hm Hd Hb Ht.
  intros V. split; [|done]. unfold ct_contains, cut_contains. rewrite !andb_true_iff. assert (E : set_dz (ct_tube c) v = tube_struct m M v s d). { unfold c, cut_tube. cbn [ct_tube]. rewrite !tube_struct_eq by lra. reflexivity. }
  change (ct_tube (ct_set_dz c v)) with (set_dz (ct_tube c) v). rewrite E. change (ct_lower (ct_set_dz c v)) with (ct_lower c). change (ct_upper (ct_set_dz c v)) with (ct_upper c). unfold c. rewrite dist_lower, dist_upper. rewrite (C85_contains UniversalTube m M v s d p Hm V Hd I). unfold cut_solid, tube_solid. rewrite <- over_b_lt, <- over_t_lt by done.
  destruct (rltb_spec (over b (- Z) p) 0); destruct (rltb_spec (over t Z p) 0); (split; [intros ((? & ?) & ? & ? & ? & ?); try done; repeat split; tauto|intros (((? & ?) & ? & ? & ?) & ?); try lra; tauto]).
Qed.
(** Normal on the lids: the normal of the upper plane from the height zero on, that of the lower one below. *)
Theorem C90_normal kmin p : cut_closed m M Z s d b t p → over b (- Z) p = 0 ∨ over t Z p = 0 → ct_normal inf kmin c p = (if rltb (vz p) 0 then b else t, true).
Proof using Hb Ht.
  intros ((C1 & C2) & _) H. apply (over_b_le Z b Hb) in C1. apply (over_t_le Z t Ht) in C2. assert (E : cut_safety_out (ct_lower c) (ct_upper c) p = 0). { unfold cut_safety_out, plane_safety_out. unfold c. rewrite dist_lower, dist_upper. unfold Rmin. destruct (Rle_dec _ _); lra. }
  unfold ct_normal. cbv zeta. rewrite E, Rabs_R0. set (x := tube_safety_out _ _ _). pose proof (Rabs_pos x). destruct (rltb_spec (Rabs x) 0); [lra|]. done.
Qed.
End Shape.
Print Assumptions C90_convex.
Print Assumptions C90_mesh.
Print Assumptions C90_set_dz.
Print Assumptions C90_normal.

(** A tube of the radius 2 between the heights -2 and 2, the upper plane rising with the slope 4/3 along -x. *)
Definition tilted : v3 := V3 (4 / 5) 0 (3 / 5).
Definition flat : v3 := V3 0 0 (-1).
Lemma tilted_facts : vdot flat flat = 1 ∧ vdot tilted tilted = 1 ∧ vz flat < 0 ∧ 0 < vz tilted.
Proof. unfold vdot, flat, tilted. cbn. repeat split; lra. Qed.
Lemma rho_x x z : rho (V3 x 0 z) = Rabs x.
Proof. unfold rho. cbn [vx vy]. replace (x * x + 0 * 0) with (Rsqr x) by (unfold Rsqr; ring). apply sqrt_Rsqr_abs. Qed.
(** The vertices of the mesh are not on the planes when these are tilted. *)
Theorem C90_mesh_refuted : ¬ ∀ inf m M Z s d b t n i r, 0 < inf → 0 <= m < M → 0 < Z → 0 < d <= 2 * PI → vdot b b = 1 → vdot t t = 1 → vz b < 0 → 0 < vz t →
  over t Z (ct_vertex (cut_tube inf m M Z s d b t) n i true r) = 0.
Proof.
  intros H. destruct tilted_facts as (F1 & F2 & F3 & F4). pose proof PI_RGT_0. specialize (H 100 0 2 2 0 (2 * PI) flat tilted 8%nat 0%nat 2 ltac:(lra) ltac:(lra) ltac:(lra) ltac:(lra) F1 F2 F3 F4).
  rewrite (proj1 (C90_mesh 100 0 2 2 0 (2 * PI) flat tilted F3 F4 8 0 2)) in H. unfold tilted in H. cbn in H. lra.
Qed.
Print Assumptions C90_mesh_refuted.
(** A point of the upper lid below the height zero gets the normal of the lower plane. *)
Theorem C90_normal_refuted : ¬ ∀ inf kmin m M Z s d b t p, 0 < inf → 0 <= m < M → 0 < Z → 0 < d <= 2 * PI → vdot b b = 1 → vdot t t = 1 → vz b < 0 → 0 < vz t →
  cut_closed m M Z s d b t p → over t Z p = 0 → over b (- Z) p < 0 → ct_normal inf kmin (cut_tube inf m M Z s d b t) p = (t, true).
Proof.
  intros H. destruct tilted_facts as (F1 & F2 & F3 & F4). pose proof PI_RGT_0. assert (C : cut_closed 0 2 2 0 (2 * PI) flat tilted (V3 (9 / 5) 0 (-2 / 5))).
  { split; [unfold roof, flat, tilted; cbn [vx vy vz]; lra|]. rewrite rho_x, Rabs_pos_eq by lra. split; [lra|intros; lra]. }
  assert (O : over tilted 2 (V3 (9 / 5) 0 (-2 / 5)) = 0) by (unfold over, vdot, tilted; cbn; lra).
  specialize (H 100 0 0 2 2 0 (2 * PI) flat tilted (V3 (9 / 5) 0 (-2 / 5)) ltac:(lra) ltac:(lra) ltac:(lra) ltac:(lra) F1 F2 F3 F4 C O ltac:(unfold over, vdot, flat; cbn; lra)).
  rewrite (C90_normal 100 0 2 2 0 (2 * PI) flat tilted F3 F4 0 _ C (or_intror O)) in H. cbn [vz] in H. destruct (rltb_spec (-2 / 5) 0); [|lra]. apply (f_equal (λ q, vx (fst q))) in H. unfold flat, tilted in H. cbn in H. lra.
Qed.
Print Assumptions C90_normal_refuted.
(** Planes that cross within the tube: a point on the continuation of one plane, far beyond the other, counts as surface. *)
Theorem C90_inside_crossing_refuted : ¬ ∀ inf m M Z s d b t p, 0 < inf → 0 <= m < M → 0 < Z → 0 < d <= 2 * PI → vdot b b = 1 → vdot t t = 1 → vz b < 0 → 0 < vz t → Rabs (vz p) < inf - kHalfTolerance → 2 * kTolerance <= M →
  1 / 10 <= over b (- Z) p → ct_inside (cut_tube inf m M Z s d b t) p = kOutside.
Proof.
  intros H. destruct tilted_facts as (F1 & F2 & F3 & F4). pose proof PI_RGT_0. pose proof kTolerance_pos as KT. assert (K : kTolerance <= 1 / 1000) by (unfold kTolerance; lra). assert (KH : kHalfTolerance = kTolerance / 2) by (unfold kHalfTolerance; lra).
  set (p := V3 3 0 (-3)). assert (O : over tilted 1 p = 0) by (unfold over, vdot, tilted, p; cbn; lra). assert (OB : over flat (Ropp 1) p = 2) by (unfold over, vdot, flat, p; cbn; lra).
  specialize (H 100 0 4 1 0 (2 * PI) flat tilted p ltac:(lra) ltac:(lra) ltac:(lra) ltac:(lra) F1 F2 F3 F4 ltac:(unfold p; cbn [vz]; rewrite Rabs_left; lra) ltac:(lra) ltac:(rewrite OB; lra)).
  unfold ct_inside, cut_inside in H. cbv zeta in H. rewrite dist_lower, dist_upper in H. rewrite O, OB, Rabs_R0 in H. destruct (rltb_spec 0 kTolerance); [|lra]. rewrite orb_true_r in H. change (ct_tube (cut_tube 100 0 4 1 0 (2 * PI) flat tilted)) with (tube_struct 0 4 100 0 (2 * PI)) in H.
  destruct (C85_inside UniversalTube 0 4 100 0 (2 * PI) p ltac:(lra) ltac:(lra) ltac:(lra) I ltac:(lra) (or_introl eq_refl)) as (_ & _ & T3 & _). cbv zeta in T3. destruct (tube_inside UniversalTube (tube_struct 0 4 100 0 (2 * PI)) p) eqn:E; try done. apply T3; [done|]. unfold p. split; [cbn [vz]; rewrite Rabs_left; lra|]. rewrite rho_x, Rabs_pos_eq by lra. split; [lra|intros; lra].
Qed.
Print Assumptions C90_inside_crossing_refuted.
(** Concrete cases. *)
Example cut_made : ∃ c, mk_ctube 100 0 0 2 4 0 (2 * PI) (V3 0 0 (-7)) (V3 4 0 3) = Some c ∧ ct_contains c (V3 1 0 2) = true ∧ ct_contains c (V3 1 0 3) = false.
Proof.
  pose proof PI_RGT_0. assert (C0 : R_sqrt.sqrt (7 * 7) = 7) by (apply sqrt_square; lra). assert (C1 : R_sqrt.sqrt (5 * 5) = 5) by (apply sqrt_square; lra).
  assert (D1 : vdot (V3 0 0 (-7)) (V3 0 0 (-7)) = 7 * 7) by (unfold vdot; cbn; ring). assert (D2 : vdot (V3 4 0 3) (V3 4 0 3) = 5 * 5) by (unfold vdot; cbn; ring).
  exists (cut_tube 100 0 2 4 0 (2 * PI) flat tilted). split.
  - rewrite C90_make; [|lra| |].
    + cbn [vz]. destruct (rltb_spec (-7) 0); [|lra]. destruct (rgtb_spec 3 0); [|lra]. cbn [andb]. do 2 f_equal; unfold direction, vmag; rewrite ?D1, ?D2, ?C0, ?C1; apply v3_eq; cbn; field.
    + unfold clean. cbv zeta. rewrite D1, Rplus_0_r, C0. cbn [vx vy vz]. repeat split; try (by left). right. rewrite Rabs_left; lra.
    + unfold clean. cbv zeta. rewrite D2, Rplus_0_r, C1. cbn [vx vy vz]. repeat split; [right; rewrite Rabs_pos_eq; lra|by left|right; rewrite Rabs_pos_eq; lra].
  - destruct tilted_facts as (F1 & F2 & F3 & F4). split.
    + apply (C90_contains 100 0 2 4 0 (2 * PI) flat tilted); try lra; [cbn [vz]; rewrite Rabs_pos_eq; lra|]. split; [unfold roof, flat, tilted; cbn [vx vy vz]; lra|]. rewrite rho_x, Rabs_pos_eq by lra. repeat split; intros; lra.
    + apply not_true_is_false. intros K. apply (C90_contains 100 0 2 4 0 (2 * PI) flat tilted) in K; try lra; [|cbn [vz]; rewrite Rabs_pos_eq; lra]. destruct K as (K & _). unfold roof, flat, tilted in K. cbn [vx vy vz] in K. lra.
Qed.
Example cut_measured : ct_volume (cut_tube 100 0 2 4 0 (2 * PI) flat tilted) = 32 * PI ∧ ct_top (cut_tube 100 0 2 4 0 (2 * PI) flat tilted) = 20 / 3 * PI.
Proof.
  unfold ct_volume, ct_top. cbv zeta. rewrite !(c_parts 100 0 2 4 0 (2 * PI) flat tilted) by lra. unfold cut_tube, flat, tilted. cbn. rewrite Rplus_0_l, sin_2PI, cos_2PI, sin_0, cos_0. split; field.
Qed.
