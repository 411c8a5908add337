(** C83: parallelepipeds: setters, corners, extent, capacity, area, points on the surface, meshes, trapezoids of the same shape. *)
From Coq Require Import Reals Lra Lia Bool ZArith Psatz.
From stdpp Require Import base list option numbers tactics.
From Verif Require Import Real3 AABBModel AABBSpec AABBProofs BoxModel BoxSpec BoxProofs PlanesModel PlanesSpec PlanesProofs TrapModel TrapSpec TrapProofs TrapProofs2 ParaModel ParaSpec ParaProofs.
From Verif Require PropTrap PropTrap2 PropPara.
Import stdpp.list.
Local Open Scope R_scope.

(** The setters. *)
Definition same_but_areas (s f : para) : Prop :=
  s = Para (pp_dim f) (pp_alpha f) (pp_theta f) (pp_phi f) (pp_ctx f) (pp_cty f) (pp_ax s) (pp_ay s) (pp_az s) (pp_nx f) (pp_ny f) (pp_nz f)
        (pp_ta f) (pp_ts f) (pp_tc f) (pp_ct f).
Definition fresh (s : para) : para := para_struct (pp_dim s) (pp_alpha s) (pp_theta s) (pp_phi s).
Lemma fresh_do u o : same_but_areas (up_para u) (fresh (up_para u)) → same_but_areas (up_para (para_do u o)) (fresh (up_para (para_do u o))).
Proof. intros E. destruct o; unfold same_but_areas in *; cbn in *; rewrite E; done. Qed.
(** After any setters, a parallelepiped differs from a new one with the same lengths and angles in the areas only; it has
    the lengths and angles last set; the bounding box stays that of the first. *)
Theorem C83_history dx dy dz alpha theta phi ops : let u := history dx dy dz alpha theta phi ops in
  same_but_areas (up_para u) (fresh (up_para u)) ∧ up_bbox u = up_bbox (mk_para dx dy dz alpha theta phi) ∧
  (∀ o, match o with
    | OpDim d => pp_dim (up_para (para_do u o)) = d ∧ pp_alpha (up_para (para_do u o)) = pp_alpha (up_para u) ∧ pp_theta (up_para (para_do u o)) = pp_theta (up_para u) ∧ pp_phi (up_para (para_do u o)) = pp_phi (up_para u)
    | OpAlpha a => up_para (para_do u o) = para_struct (pp_dim (up_para u)) a (pp_theta (up_para u)) (pp_phi (up_para u))
    | OpTheta a => up_para (para_do u o) = para_struct (pp_dim (up_para u)) (pp_alpha (up_para u)) a (pp_phi (up_para u))
    | OpPhi a => up_para (para_do u o) = para_struct (pp_dim (up_para u)) (pp_alpha (up_para u)) (pp_theta (up_para u)) a
    | OpThetaPhi a b => up_para (para_do u o) = para_struct (pp_dim (up_para u)) (pp_alpha (up_para u)) a b
    end).
Proof.
  cbv zeta. assert (A : same_but_areas (up_para (history dx dy dz alpha theta phi ops)) (fresh (up_para (history dx dy dz alpha theta phi ops)))).
  { unfold history. assert (K : ∀ ops u, same_but_areas (up_para u) (fresh (up_para u)) → same_but_areas (up_para (foldl para_do u ops)) (fresh (up_para (foldl para_do u ops)))).
    { induction ops0 as [|o ops0 IH]; intros u Hu; [done|]. cbn [foldl]. apply IH, fresh_do, Hu. }
    apply K. done. }
  split; [done|]. split.
  - unfold history. clear A. generalize (mk_para dx dy dz alpha theta phi). induction ops as [|o ops IH]; intros u; [done|]. cbn [foldl]. rewrite IH. done.
  - set (s := up_para (history dx dy dz alpha theta phi ops)) in *.
    assert (Et : pp_ts s = tan (pp_theta s) * sin (pp_phi s)) by (apply (f_equal pp_ts) in A; exact A).
    assert (Ec : pp_tc s = tan (pp_theta s) * cos (pp_phi s)) by (apply (f_equal pp_tc) in A; exact A).
    assert (Ea : pp_ta s = tan (pp_alpha s)) by (apply (f_equal pp_ta) in A; exact A).
    assert (Eo : pp_ct s = cos (pp_theta s)) by (apply (f_equal pp_ct) in A; exact A).
    intros []; cbn [para_do up_para]; fold s; [done|..]; unfold set_theta, set_phi, set_alpha, set_theta_phi, para_struct, set_theta_phi, set_alpha, compute_normals;
    cbn [pp_dim pp_alpha pp_theta pp_phi pp_ta pp_ts pp_tc pp_ct]; rewrite ?Et, ?Ec, ?Ea, ?Eo; done.
Qed.
Print Assumptions C83_history.
(** SetDimensions leaves SurfaceArea and the bounding box of the former lengths. *)
Theorem C83_dimensions_refuted : ∃ u, u = history 1 1 1 0 0 0 [OpDim (V3 10 10 10)] ∧
  para_area (up_para u) = 24 ∧ para_area (fresh (up_para u)) = 2400 ∧ up_bbox u = (V3 (-1) (-1) (-1), V3 1 1 1) ∧ para_contains (up_para u) (V3 9 9 9) = true.
Proof.
  eexists; split; [reflexivity|]. assert (M1 : ∀ v, vdot v v = 1 → vmag v = 1) by (intros v E; apply PropTrap.vmag_is; lra).
  assert (E : ∀ d, vmag (vcross (V3 (tan 0) 1 0) (V3 (tan 0 * cos d) (tan 0 * sin d) 1)) = 1) by (intros d; rewrite tan_0, !Rmult_0_l; apply M1; unfold vdot; cbn; ring).
  assert (E' : ∀ d, vmag (vcross (V3 (tan 0 * cos d) (tan 0 * sin d) 1) (V3 1 0 0)) = 1) by (intros d; rewrite tan_0, !Rmult_0_l; apply M1; unfold vdot; cbn; ring).
  split; [|split; [|split]].
  - unfold para_area, history. cbn [foldl para_do up_para mk_para para_struct set_theta_phi set_alpha compute_normals pp_ax pp_ay pp_az pp_dim pp_ta pp_tc pp_ts vx vy vz]. rewrite E, E'. lra.
  - unfold para_area, history, fresh. cbn [foldl para_do up_para mk_para para_struct set_theta_phi set_alpha compute_normals pp_ax pp_ay pp_az pp_dim pp_ta pp_tc pp_ts pp_alpha pp_theta pp_phi vx vy vz]. rewrite E, E'. lra.
  - unfold history. cbn [foldl para_do up_bbox mk_para]. unfold para_extent. cbn [pp_dim pp_ta pp_tc pp_ts para_struct set_theta_phi set_alpha compute_normals vx vy vz].
    rewrite tan_0, !Rmult_0_l, Rabs_R0. f_equal; apply v3_eq; cbn [vx vy vz]; lra.
  - apply PropPara.C83_contains; [by eexists _, _, _, _, _, _, _|]. unfold history. cbn [foldl para_do up_para mk_para para_struct set_theta_phi set_alpha compute_normals pp_dim pp_alpha pp_theta pp_phi vx vy vz].
    rewrite tan_0, !Rmult_0_l. exists 9, 9, 9. rewrite Rabs_pos_eq by lra. repeat split; try lra. apply v3_eq; cbn; ring.
Qed.
Print Assumptions C83_dimensions_refuted.

Section Para.
Variable s : para.
Hypothesis Hr : reachable s.
Let ta := tan (pp_alpha s). Let tc := tan (pp_theta s) * cos (pp_phi s). Let ts := tan (pp_theta s) * sin (pp_phi s).
Let dx := vx (pp_dim s). Let dy := vy (pp_dim s). Let dz := vz (pp_dim s).
Let S := oblique ta tc ts dx dy dz.
Let G : good s. Proof. apply good_reachable, Hr. Qed.
(** Extent: the smallest box around the solid. *)
Theorem C83_extent : 0 <= dx → 0 <= dy → 0 <= dz → let '(lo, hi) := para_extent s in
  (∀ p, S p → (vx lo <= vx p <= vx hi) ∧ (vy lo <= vy p <= vy hi) ∧ vz lo <= vz p <= vz hi) ∧
  (∃ p, S p ∧ vx p = vx lo) ∧ (∃ p, S p ∧ vx p = vx hi) ∧ (∃ p, S p ∧ vy p = vy lo) ∧ (∃ p, S p ∧ vy p = vy hi) ∧ (∃ p, S p ∧ vz p = vz lo) ∧ (∃ p, S p ∧ vz p = vz hi).
Proof using Hr.
  intros Hx Hy Hz. unfold para_extent. rewrite (g_ta _ G), (g_tc _ G), (g_ts _ G). fold ta tc ts dx dy dz. cbn [vx vy vz].
  assert (B : ∀ a d k, Rabs a <= d → - (d * Rabs k) <= a * k <= d * Rabs k).
  { intros a d k Ha. assert (Rabs (a * k) <= d * Rabs k) by (rewrite Rabs_mult; apply Rmult_le_compat_r; [apply Rabs_pos|done]). by apply abs_le. }
  assert (Sg : ∀ d k, 0 <= d → ∃ a, Rabs a <= d ∧ a * k = d * Rabs k).
  { intros d k Hd. unfold Rabs at 2. destruct (Rcase_abs k); [exists (- d); rewrite Rabs_Ropp|exists d]; rewrite Rabs_pos_eq by done; lra. }
  assert (Ng : ∀ a d, Rabs a <= d → Rabs (- a) <= d) by (intros; by rewrite Rabs_Ropp).
  split.
  - intros p (a & b & c & A1 & A2 & A3 & ->). unfold skewed, edge_x, edge_y, edge_z. cbn [vadd vscale vx vy vz]. pose proof (B b dy ta A2). pose proof (B c dz tc A3). pose proof (B c dz ts A3). apply abs_le in A1, A2, A3. repeat split; lra.
  - destruct (Sg dy ta Hy) as (b & B1 & B2). destruct (Sg dz tc Hz) as (c & C1 & C2). destruct (Sg dz ts Hz) as (e & E1 & E2).
    assert (Rabs dx <= dx) by (rewrite Rabs_pos_eq; lra). assert (Rabs dy <= dy) by (rewrite Rabs_pos_eq; lra). assert (Rabs dz <= dz) by (rewrite Rabs_pos_eq; lra). assert (Rabs 0 <= dx ∧ Rabs 0 <= dy) by (rewrite Rabs_R0; lra).
    split; [|split; [|split; [|split; [|split]]]].
    + exists (skewed ta tc ts (- dx) (- b) (- c)). split; [exists (- dx), (- b), (- c); auto|]. unfold skewed, edge_x, edge_y, edge_z. cbn [vadd vscale vx vy vz]. lra.
    + exists (skewed ta tc ts dx b c). split; [exists dx, b, c; auto|]. unfold skewed, edge_x, edge_y, edge_z. cbn [vadd vscale vx vy vz]. lra.
    + exists (skewed ta tc ts 0 (- dy) (- e)). split; [exists 0, (- dy), (- e); intuition auto|]. unfold skewed, edge_x, edge_y, edge_z. cbn [vadd vscale vx vy vz]. lra.
    + exists (skewed ta tc ts 0 dy e). split; [exists 0, dy, e; intuition auto|]. unfold skewed, edge_x, edge_y, edge_z. cbn [vadd vscale vx vy vz]. lra.
    + exists (skewed ta tc ts 0 0 (- dz)). split; [exists 0, 0, (- dz); intuition auto|]. unfold skewed, edge_x, edge_y, edge_z. cbn [vadd vscale vx vy vz]. lra.
    + exists (skewed ta tc ts 0 0 dz). split; [exists 0, 0, dz; intuition auto|]. unfold skewed, edge_x, edge_y, edge_z. cbn [vadd vscale vx vy vz]. lra.
Qed.
(** Capacity: the triple product of the edges. *)
Theorem C83_capacity : para_capacity s = vdot (vcross (vscale (2 * dx) edge_x) (vscale (2 * dy) (edge_y ta))) (vscale (2 * dz) (edge_z tc ts)).
Proof using. unfold para_capacity, vdot. cbn. fold dx dy dz. ring. Qed.
(** SurfaceArea of a solid whose lengths were not set after the angles: the areas of the six faces. *)
Theorem C83_area : 0 <= dx → 0 <= dy → 0 <= dz → let c i j k := skewed ta tc ts (i * dx) (j * dy) (k * dz) in
  para_area (fresh s) =
    quad_area (c 1 (-1) (-1)) (c 1 1 (-1)) (c 1 1 1) (c 1 (-1) 1) + quad_area (c (-1) (-1) (-1)) (c (-1) 1 (-1)) (c (-1) 1 1) (c (-1) (-1) 1) +
    (quad_area (c (-1) 1 (-1)) (c 1 1 (-1)) (c 1 1 1) (c (-1) 1 1) + quad_area (c (-1) (-1) (-1)) (c 1 (-1) (-1)) (c 1 (-1) 1) (c (-1) (-1) 1)) +
    (quad_area (c (-1) (-1) 1) (c 1 (-1) 1) (c 1 1 1) (c (-1) 1 1) + quad_area (c (-1) (-1) (-1)) (c 1 (-1) (-1)) (c 1 1 (-1)) (c (-1) 1 (-1))).
Proof using.
  intros Hx Hy Hz c.
  assert (T : ∀ a b e v k, 0 <= k → vcross (vsub b a) (vsub e a) = vscale k v ∨ vcross (vsub b a) (vsub e a) = vscale (- k) v → triangle_area a b e = k * vmag v / 2).
  { intros a b e v k Hk HH. unfold triangle_area. assert (vmag (vcross (vsub b a) (vsub e a)) = k * vmag v) as ->; [|done].
    destruct HH as [-> | ->]; rewrite vmag_scale, ?Rabs_Ropp, Rabs_pos_eq by done; done. }
  assert (Pyz : 0 <= 4 * dy * dz) by nra. assert (Pxz : 0 <= 4 * dz * dx) by nra. assert (Pxy : 0 <= 4 * dx * dy) by nra.
  set (nx := vcross (edge_y ta) (edge_z tc ts)). set (ny := vcross (edge_z tc ts) edge_x).
  assert (Q1 : ∀ i, quad_area (c i (-1) (-1)) (c i 1 (-1)) (c i 1 1) (c i (-1) 1) = 4 * dy * dz * vmag nx).
  { intros i. unfold quad_area. rewrite (T _ _ _ nx (4 * dy * dz)), (T _ _ _ nx (4 * dy * dz)); try done; [lra|..]; left; apply v3_eq; unfold c, skewed, nx, edge_x, edge_y, edge_z; cbn; ring. }
  assert (Q2 : ∀ j, quad_area (c (-1) j (-1)) (c 1 j (-1)) (c 1 j 1) (c (-1) j 1) = 4 * dz * dx * vmag ny).
  { intros i. unfold quad_area. rewrite (T _ _ _ ny (4 * dz * dx)), (T _ _ _ ny (4 * dz * dx)); try done; [lra|..]; right; apply v3_eq; unfold c, skewed, ny, edge_x, edge_y, edge_z; cbn; ring. }
  assert (Q3 : ∀ k, quad_area (c (-1) (-1) k) (c 1 (-1) k) (c 1 1 k) (c (-1) 1 k) = 4 * dx * dy).
  { intros i. unfold quad_area. rewrite (T _ _ _ (V3 0 0 1) (4 * dx * dy)), (T _ _ _ (V3 0 0 1) (4 * dx * dy)); try done; [rewrite vmag_e3; lra|..]; left; apply v3_eq; unfold c, skewed, edge_x, edge_y, edge_z; cbn; ring. }
  rewrite !Q1, !Q2, !Q3. unfold para_area, fresh. cbn [para_struct set_theta_phi set_alpha compute_normals pp_ax pp_ay pp_az pp_dim pp_ta pp_tc pp_ts pp_alpha pp_theta pp_phi].
  fold ta tc ts dx dy dz. change (vcross (V3 ta 1 0) (V3 tc ts 1)) with nx. change (vcross (V3 tc ts 1) (V3 1 0 0)) with ny. ring.
Qed.
(** SamplePointOnSurface: numbers from [0, 1] give a point of the face chosen, and every point of it for some such numbers. *)
Definition face (i : nat) : v3 → Prop :=
  match i with
  | 0%nat => face_x ta tc ts (-1) dx dy dz | 1%nat => face_x ta tc ts 1 dx dy dz | 2%nat => face_y ta tc ts (-1) dx dy dz
  | 3%nat => face_y ta tc ts 1 dx dy dz | 4%nat => face_z ta tc ts (-1) dx dy dz | _ => face_z ta tc ts 1 dx dy dz
  end.
Theorem C83_sample r p : 0 < dx → 0 < dy → 0 < dz → face (para_facet s r) p ↔ ∃ u v, 0 <= u <= 1 ∧ 0 <= v <= 1 ∧ p = para_sample s r u v.
Proof using Hr.
  intros Hx Hy Hz. unfold para_sample. cbv zeta. fold dx dy dz. rewrite (g_ta _ G), (g_tc _ G), (g_ts _ G). fold ta tc ts.
  assert (U : ∀ d a, 0 < d → Rabs a <= d → 0 <= (a / d + 1) / 2 <= 1 ∧ a = (2 * ((a / d + 1) / 2) - 1) * d).
  { intros d a Hd Ha. apply abs_le in Ha. assert (-1 <= a / d <= 1) by (split; apply Rmult_le_reg_r with d; try done; replace (a / d * d) with a by (field; lra); lra). split; [lra|field; lra]. }
  assert (V : ∀ d u, 0 < d → 0 <= u <= 1 → Rabs ((2 * u - 1) * d) <= d) by (intros d u Hd Hu; apply abs_le; split; nra).
  assert (Six : para_facet s r = 0%nat ∨ para_facet s r = 1%nat ∨ para_facet s r = 2%nat ∨ para_facet s r = 3%nat ∨ para_facet s r = 4%nat ∨ para_facet s r = 5%nat).
  { unfold para_facet. cbv zeta. repeat match goal with |- context [if ?b then _ else _] => destruct b end; auto 10. }
  destruct Six as [E|[E|[E|[E|[E|E]]]]]; rewrite E; cbn [face].
  - split.
    + intros (b & c & B & C & ->). destruct (U dy b Hy B) as [U1 U2]. destruct (U dz c Hz C) as [V1 V2]. eexists _, _. split; [exact U1|]. split; [exact V1|].
      rewrite U2 at 1. rewrite V2 at 1. apply v3_eq; unfold skewed, edge_x, edge_y, edge_z; cbn [vadd vsub vscale vx vy vz]; ring.
    + intros (u & v & Hu & Hv & ->). exists ((2 * u - 1) * dy), ((2 * v - 1) * dz). split; [by apply V|]. split; [by apply V|]. apply v3_eq; unfold skewed, edge_x, edge_y, edge_z; cbn [vadd vsub vscale vx vy vz]; ring.
  - split.
    + intros (b & c & B & C & ->). destruct (U dy b Hy B) as [U1 U2]. destruct (U dz c Hz C) as [V1 V2]. eexists _, _. split; [exact V1|]. split; [exact U1|].
      rewrite U2 at 1. rewrite V2 at 1. apply v3_eq; unfold skewed, edge_x, edge_y, edge_z; cbn [vadd vsub vscale vx vy vz]; ring.
    + intros (u & v & Hu & Hv & ->). exists ((2 * v - 1) * dy), ((2 * u - 1) * dz). split; [by apply V|]. split; [by apply V|]. apply v3_eq; unfold skewed, edge_x, edge_y, edge_z; cbn [vadd vsub vscale vx vy vz]; ring.
  - split.
    + intros (b & c & B & C & ->). destruct (U dx b Hx B) as [U1 U2]. destruct (U dz c Hz C) as [V1 V2]. eexists _, _. split; [exact V1|]. split; [exact U1|].
      rewrite U2 at 1. rewrite V2 at 1. apply v3_eq; unfold skewed, edge_x, edge_y, edge_z; cbn [vadd vsub vscale vx vy vz]; ring.
    + intros (u & v & Hu & Hv & ->). exists ((2 * v - 1) * dx), ((2 * u - 1) * dz). split; [by apply V|]. split; [by apply V|]. apply v3_eq; unfold skewed, edge_x, edge_y, edge_z; cbn [vadd vsub vscale vx vy vz]; ring.
  - split.
    + intros (b & c & B & C & ->). destruct (U dx b Hx B) as [U1 U2]. destruct (U dz c Hz C) as [V1 V2]. eexists _, _. split; [exact U1|]. split; [exact V1|].
      rewrite U2 at 1. rewrite V2 at 1. apply v3_eq; unfold skewed, edge_x, edge_y, edge_z; cbn [vadd vsub vscale vx vy vz]; ring.
    + intros (u & v & Hu & Hv & ->). exists ((2 * u - 1) * dx), ((2 * v - 1) * dz). split; [by apply V|]. split; [by apply V|]. apply v3_eq; unfold skewed, edge_x, edge_y, edge_z; cbn [vadd vsub vscale vx vy vz]; ring.
  - split.
    + intros (b & c & B & C & ->). destruct (U dx b Hx B) as [U1 U2]. destruct (U dy c Hy C) as [V1 V2]. eexists _, _. split; [exact U1|]. split; [exact V1|].
      rewrite U2 at 1. rewrite V2 at 1. apply v3_eq; unfold skewed, edge_x, edge_y, edge_z; cbn [vadd vsub vscale vx vy vz]; ring.
    + intros (u & v & Hu & Hv & ->). exists ((2 * u - 1) * dx), ((2 * v - 1) * dy). split; [by apply V|]. split; [by apply V|]. apply v3_eq; unfold skewed, edge_x, edge_y, edge_z; cbn [vadd vsub vscale vx vy vz]; ring.
  - split.
    + intros (b & c & B & C & ->). destruct (U dx b Hx B) as [U1 U2]. destruct (U dy c Hy C) as [V1 V2]. eexists _, _. split; [exact V1|]. split; [exact U1|].
      rewrite U2 at 1. rewrite V2 at 1. apply v3_eq; unfold skewed, edge_x, edge_y, edge_z; cbn [vadd vsub vscale vx vy vz]; ring.
    + intros (u & v & Hu & Hv & ->). exists ((2 * v - 1) * dx), ((2 * u - 1) * dy). split; [by apply V|]. split; [by apply V|]. apply v3_eq; unfold skewed, edge_x, edge_y, edge_z; cbn [vadd vsub vscale vx vy vz]; ring.
Qed.
(** The face is chosen by its share of the area: [r] times the area lies in its part of the sum over the faces before it. *)
Theorem C83_sample_face r : 0 <= pp_ax s → 0 <= pp_ay s → 0 <= pp_az s → 0 <= r <= 1 →
  let areas := [pp_ax s; pp_ax s; pp_ay s; pp_ay s; pp_az s; pp_az s] in
  let upto i := foldr Rplus 0 (take i areas) in
  ∃ i, para_facet s r = i ∧ (i < 6)%nat ∧ (upto i < r * para_area s ∨ i = 0%nat) ∧ r * para_area s <= upto (Datatypes.S i).
Proof using.
  intros Hx Hy Hz Hrr areas upto. exists (para_facet s r). split; [done|]. unfold para_facet. cbv zeta. unfold para_area.
  replace (r * (2 * (pp_ax s + pp_ay s + pp_az s))) with ((pp_ax s + pp_ax s + pp_ay s + pp_ay s + pp_az s + pp_az s) * r) by ring. set (sel := _ * r).
  assert (sel <= pp_ax s + pp_ax s + pp_ay s + pp_ay s + pp_az s + pp_az s) by (unfold sel; nra).
  repeat match goal with |- context [rleb ?a ?b] => destruct (rleb_spec a b) end; unfold upto, areas; cbn [take foldr]; (split; [lia|]); (split; [|lra]); try (by right); left; lra.
Qed.
(** Meshes: none for solids without slopes, whatever [phi]. *)
Theorem C83_mesh_refuted : pp_alpha s = 0 → pp_theta s = 0 → para_mesh s = None.
Proof using.
  intros Ea Et. unfold para_mesh. cbv zeta. rewrite Ea, Et, cos_0. destruct (reqb_spec (sin (pp_phi s)) 0) as [|N]; [done|].
  match goal with |- context [rltb ?w 0] => destruct (rltb_spec w 0) as [|L]; [done|] end. exfalso. apply N.
  set (i := (1 - 1 * cos (pp_phi s)) / sin (pp_phi s)) in *. pose proof (Rle_0_sqr i) as Q. unfold Rsqr in Q. assert (i = 0) as E0 by nra.
  assert (1 - 1 * cos (pp_phi s) = i * sin (pp_phi s)) as E1 by (unfold i; field; done). rewrite E0 in E1. pose proof (sin2_cos2 (pp_phi s)) as T. unfold Rsqr in T.
  assert (cos (pp_phi s) = 1) as E2 by lra. rewrite E2 in T. nra.
Qed.
End Para.
Print Assumptions C83_extent.
Print Assumptions C83_capacity.
Print Assumptions C83_area.
Print Assumptions C83_sample.
Print Assumptions C83_sample_face.
Print Assumptions C83_mesh_refuted.
