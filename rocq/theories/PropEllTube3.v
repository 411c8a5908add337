(** C86: elliptical tubes: normals, measures, samples, mesh and setters. *)
From Coq Require Import Reals Lra Lia Bool ZArith Psatz.
From stdpp Require Import base list option numbers tactics.
From Verif Require Import Real3 AABBModel AABBProofs BoxModel BoxProofs PlanesModel TetModel ConeModel ConeSpec ConeProofs EllTubeModel EllTubeSpec EllTubeProofs EllTubeProofs2 EllTubeProofs3 EllTubeProofs4.
Import stdpp.list.
Local Open Scope R_scope.

(** Normal: on the side along the outward gradient, on a lid along the axis, on an edge between both, elsewhere marked invalid. *)
Theorem C86_normal perimeter X Y Z kmin p : 2 * kTolerance <= X → 2 * kTolerance <= Y → 0 <= kmin → let n := et_normal kmin (mk_elltube perimeter X Y Z) p in let g := ell_gradient X Y p in let lid := V3 0 0 (rsign (vz p)) in
  (ell_near_side X Y p → ¬ ell_near_lid Z p → ∃ k, 0 < k ∧ n = (vscale k g, true)) ∧
  (¬ ell_near_side X Y p → ell_near_lid Z p → n = (lid, true)) ∧
  (ell_near_side X Y p → ell_near_lid Z p → ∃ k c, 0 < k ∧ 0 < c ∧ n = (vscale c (vadd (vscale k g) lid), true)) ∧
  (¬ ell_near_side X Y p → ¬ ell_near_lid Z p → snd n = false).
Proof.
  intros HX HY Hk n g lid. unfold n, g, lid. split; [|split; [|split]]; intros A B.
  - destruct (normal_side X Y Z HX HY perimeter kmin p Hk A B) as (k & K & E & _). by exists k.
  - by apply normal_lid.
  - destruct (normal_edge X Y Z HX HY perimeter kmin p Hk A B) as (k & c & K & C & E & _). by exists k, c.
  - by apply normal_off.
Qed.
Print Assumptions C86_normal.
(** With kMinimum taken for zero a valid normal has length one, and on an edge it is halfway between the normals of the side and of the lid. *)
Theorem C86_normal_unit perimeter X Y Z p : 2 * kTolerance <= X → 2 * kTolerance <= Y → let n := et_normal 0 (mk_elltube perimeter X Y Z) p in let g := ell_gradient X Y p in
  (snd n = true → vdot (fst n) (fst n) = 1) ∧
  (ell_near_side X Y p → ell_near_lid Z p → ∃ k c, 0 < k ∧ 0 < c ∧ vdot (vscale k g) (vscale k g) = 1 ∧ fst n = vscale c (vadd (vscale k g) (V3 0 0 (rsign (vz p))))).
Proof.
  intros HX HY n g. unfold n, g. split.
  - intros V. destruct (near_side_spec X Y Z HX HY perimeter p) as [A|A]; destruct (near_lid_spec X Y Z HX HY perimeter p) as [B|B].
    + destruct (normal_edge X Y Z HX HY perimeter 0 p (Rle_refl 0) A B) as (k & c & _ & _ & _ & E). by apply E.
    + destruct (normal_side X Y Z HX HY perimeter 0 p (Rle_refl 0) A B) as (k & _ & E & U). rewrite E. by apply U.
    + rewrite normal_lid by done. unfold vdot. cbn [fst vx vy vz]. rewrite sign_sqr. ring.
    + by rewrite normal_off in V.
  - intros A B. destruct (normal_edge X Y Z HX HY perimeter 0 p (Rle_refl 0) A B) as (k & c & K & C & E & U). exists k, c. rewrite E. destruct (U eq_refl) as [U1 _]. done.
Qed.
Print Assumptions C86_normal_unit.
Lemma tol_less : 0 < kTolerance <= / 1000.
Proof. unfold kTolerance. lra. Qed.
Example normal_wide : ell_near_side 2 1 (V3 2 0 0) ∧ ¬ ell_near_lid 3 (V3 2 0 0) ∧ ell_gradient 2 1 (V3 2 0 0) = V3 1 0 0.
Proof.
  pose proof tol_less. assert (E1 : ell 2 1 (V3 2 0 0) = 1) by (unfold ell; cbn [vx vy]; replace (2 / 2 * (2 / 2) + 0 / 1 * (0 / 1)) with 1 by field; apply sqrt_1). unfold ell_near_side, ell_near_lid. rewrite E1, Rmin_right by lra. cbn [vz]. rewrite Rabs_R0. unfold kHalfTolerance. split; [lra|]. split; [lra|]. unfold ell_gradient. apply v3_eq; cbn; field.
Qed.
(** A valid normal does not mean a point on the surface: far outside, level with a lid, the answer is valid. *)
Theorem C86_normal_valid_refuted perimeter kmin : ¬ (∀ X Y Z p, 2 * kTolerance <= X → 2 * kTolerance <= Y → 2 * kTolerance <= Z → snd (et_normal kmin (mk_elltube perimeter X Y Z) p) = true → et_inside (mk_elltube perimeter X Y Z) p = kSurface).
Proof.
  intros H. pose proof tol_less as T. assert (H1 : 2 * kTolerance <= 1) by lra. assert (E : ell 1 1 (V3 5 0 1) = 5) by (unfold ell; cbn [vx vy]; replace (5 / 1 * (5 / 1) + 0 / 1 * (0 / 1)) with (5 * 5) by field; apply sqrt_square; lra). assert (M : Rmin 1 1 = 1) by (apply Rmin_left; lra).
  assert (O : et_inside (mk_elltube perimeter 1 1 1) (V3 5 0 1) = kOutside). { apply inside_out; [done|done|]. intros [_ B]. rewrite E, M in B. unfold kHalfTolerance in B. lra. }
  rewrite (H 1 1 1 (V3 5 0 1)) in O; [done|done|done|done|]. rewrite normal_lid; [done|done|done| |].
  - unfold ell_near_side. rewrite E, M. unfold kHalfTolerance. lra.
  - unfold ell_near_lid. cbn [vz]. rewrite Rabs_pos_eq by lra. unfold kHalfTolerance. lra.
Qed.
Print Assumptions C86_normal_valid_refuted.
(** Capacity and surface area. *)
Theorem C86_measures perimeter X Y Z : 2 * kTolerance <= X → 2 * kTolerance <= Y → let t := mk_elltube perimeter X Y Z in
  et_capacity t = (PI * X * Y) * (2 * Z) ∧ et_surface_area t = 2 * (PI * X * Y) + perimeter X Y * (2 * Z).
Proof. intros HX HY t. unfold t. rewrite te by done. unfold et_capacity, et_surface_area. cbn. split; ring. Qed.
Print Assumptions C86_measures.
(** EllipsePerimeter stops for all half axes that are not zero, with one answer however long it may run. *)
Theorem C86_perimeter_stops A B : A <> 0 → B <> 0 → ∃ P n, ∀ fuel, (n <= fuel)%nat → ellipse_perimeter fuel A B = Some P.
Proof. apply perimeter_stops. Qed.
Print Assumptions C86_perimeter_stops.
(** For a circle it is the circumference. *)
Theorem C86_perimeter_circle fuel r : 0 < r → ellipse_perimeter fuel r r = Some (2 * PI * r).
Proof. apply perimeter_circle. Qed.
Print Assumptions C86_perimeter_circle.
Example measures_round : let t := mk_elltube (fun a _ => 2 * PI * a) 1 1 3 in et_capacity t = 6 * PI ∧ et_surface_area t = 14 * PI.
Proof. pose proof tol_less. destruct (C86_measures (fun a _ => 2 * PI * a) 1 1 3) as [A B]; [lra|lra|]. cbv zeta. rewrite A, B. split; ring. Qed.
(** The first random number picks the pieces in proportion to their areas. *)
Theorem C86_choose perimeter X Y Z r : 2 * kTolerance <= X → 2 * kTolerance <= Y → let t := mk_elltube perimeter X Y Z in let base := PI * X * Y in
  (et_choose t r = 0%nat ↔ et_surface_area t * r <= base) ∧ (et_choose t r = 1%nat ↔ base < et_surface_area t * r <= 2 * base) ∧ (et_choose t r = 2%nat ↔ 2 * base < et_surface_area t * r).
Proof.
  intros HX HY t base. pose proof kTolerance_pos. pose proof PI_RGT_0. assert (B : 0 < base) by (apply Rmult_lt_0_compat; [apply Rmult_lt_0_compat; [done|lra]|lra]). assert (E : PI * et_dx t * et_dy t = base) by (unfold t; rewrite te by done; done). unfold et_choose. rewrite E. set (w := et_surface_area t * r). destruct (rgtb_spec w (2 * base)); destruct (rgtb_spec w base); repeat split; intros; try done; try lra; exfalso; lra.
Qed.
Print Assumptions C86_choose.
(** Every sample is on the piece that was picked. *)
Theorem C86_sample perimeter X Y Z r x0 y0 w u : 2 * kTolerance <= X → 2 * kTolerance <= Y → 0 <= Z → 0 <= w <= 1 → let t := mk_elltube perimeter X Y Z in let q := et_sample t r x0 y0 w u in
  match et_choose t r with 0%nat => ell_lid X Y Z false q | 1%nat => ell_lid X Y Z true q | _ => ell_side X Y Z q end.
Proof.
  intros HX HY HZ Hw t q. pose proof kTolerance_pos. unfold q, et_sample. replace (et_dx t) with X by (unfold t; rewrite te by done; done). replace (et_dy t) with Y by (unfold t; rewrite te by done; done). replace (et_dz t) with Z by (unfold t; rewrite te by done; done). assert (EZ : ∀ a b z, ell X Y (V3 a b z) = ell X Y (V3 a b 0)) by done.
  destruct (et_choose t r) as [|[|k]].
  - split; [|done]. rewrite EZ. apply random_in; lra.
  - split; [|done]. rewrite EZ. apply random_in; lra.
  - split; [rewrite EZ; apply random_on; lra|]. cbn [vz]. apply abs_le. split; nra.
Qed.
Print Assumptions C86_sample.
Example sample_wide : et_choose (mk_elltube (fun a _ => 2 * PI * a) 1 1 3) 0 = 0%nat ∧ et_choose (mk_elltube (fun a _ => 2 * PI * a) 1 1 3) 1 = 2%nat.
Proof.
  pose proof tol_less. pose proof PI_RGT_0. destruct (C86_measures (fun a _ => 2 * PI * a) 1 1 3) as [_ B]; [lra|lra|]. split; (apply C86_choose; [lra|lra|]); rewrite B; lra.
Qed.
(** The mesh: every vertex is on the rim of a lid, every polygon uses existing vertices only, and there are n sides and two lids. *)
Theorem C86_mesh perimeter X Y Z n : 2 * kTolerance <= X → 2 * kTolerance <= Y → 0 <= Z → let t := mk_elltube perimeter X Y Z in
  (∀ v, v ∈ et_vertices t n → ell X Y v = 1 ∧ (vz v = - Z ∨ vz v = Z)) ∧ length (et_polygons n) = (n + 2)%nat ∧
  (∀ f i, f ∈ et_polygons n → i ∈ f → (i < length (et_vertices t n))%nat).
Proof.
  intros HX HY HZ t. pose proof kTolerance_pos. assert (LEN : length (et_vertices t n) = (2 * (n + 1))%nat) by (unfold et_vertices; cbv zeta; rewrite app_length, !map_length, !seq_length; lia). split; [|split].
  - intros v. unfold et_vertices. replace (et_dx t) with X by (unfold t; rewrite te by done; done). replace (et_dy t) with Y by (unfold t; rewrite te by done; done). replace (et_dz t) with Z by (unfold t; rewrite te by done; done). cbv zeta. rewrite elem_of_app, !elem_of_list_In, !in_map_iff.
    assert (C : ∀ c z, ell X Y (V3 (X * cos c) (Y * sin c) z) = 1). { intros c z. unfold ell. cbn [vx vy]. replace (X * cos c / X * (X * cos c / X) + Y * sin c / Y * (Y * sin c / Y)) with (Rsqr (sin c) + Rsqr (cos c)) by (unfold Rsqr; field; lra). rewrite sin2_cos2. apply sqrt_1. }
    intros [(i & <- & _)|(i & <- & _)]; (split; [apply C|]); cbn [vz]; [by left|by right].
  - unfold et_polygons. cbn [length]. rewrite map_length, seq_length. lia.
  - intros f i Hf Hi. rewrite LEN. unfold et_polygons in Hf. rewrite !elem_of_cons in Hf. destruct Hf as [->|[->|Hf]].
    + rewrite elem_of_list_In, in_map_iff in Hi. destruct Hi as (j & <- & Hj). apply in_seq in Hj. lia.
    + rewrite elem_of_list_In, <- in_rev, in_seq in Hi. lia.
    + rewrite elem_of_list_In, in_map_iff in Hf. destruct Hf as (j & <- & Hj). apply in_seq in Hj. rewrite !elem_of_cons in Hi. destruct Hi as [->|[->|[->|[->|Hi]]]]; [lia..|]. by apply elem_of_nil in Hi.
Qed.
Print Assumptions C86_mesh.
Example mesh_four : et_polygons 4 = [[5; 6; 7; 8]; [3; 2; 1; 0]; [0; 1; 6; 5]; [1; 2; 7; 6]; [2; 3; 8; 7]; [3; 4; 9; 8]]%nat.
Proof. done. Qed.
(** Each setter gives what the constructor would, whatever the tube and the new value. *)
Theorem C86_setters perimeter X Y Z v : 2 * kTolerance <= X → 2 * kTolerance <= Y → let t := mk_elltube perimeter X Y Z in
  et_set_dx perimeter t v = mk_elltube perimeter v Y Z ∧ et_set_dy perimeter t v = mk_elltube perimeter X v Z ∧ et_set_dz perimeter t v = mk_elltube perimeter X Y v.
Proof. intros HX HY t. unfold t. rewrite te by done. done. Qed.
Print Assumptions C86_setters.
(** Half axes below two tolerances give the smallest tube; the stored half axes are never smaller. *)
Theorem C86_make perimeter X Y Z : let t := mk_elltube perimeter X Y Z in
  2 * kTolerance <= et_dx t ∧ 2 * kTolerance <= et_dy t ∧ (2 * kTolerance <= X → 2 * kTolerance <= Y → et_dx t = X ∧ et_dy t = Y ∧ et_dz t = Z) ∧
  (X < 2 * kTolerance ∨ Y < 2 * kTolerance → et_dx t = 2 * kTolerance ∧ et_dy t = 2 * kTolerance ∧ et_dz t = 2 * kTolerance).
Proof.
  unfold mk_elltube, check_parameters. cbn. destruct (rltb_spec X (2 * kTolerance)); destruct (rltb_spec Y (2 * kTolerance)); cbn; repeat split; intros; try lra.
Qed.
Print Assumptions C86_make.
Example make_flat perimeter : et_dx (mk_elltube perimeter 5 0 3) = 2 * kTolerance ∧ et_dx (et_set_dx perimeter (mk_elltube perimeter 2 1 3) 7) = 7.
Proof.
  pose proof tol_less. split; [apply C86_make; lra|]. destruct (C86_setters perimeter 2 1 3 7) as [-> _]; [lra|lra|]. apply C86_make; lra.
Qed.
(** The half length is not checked (fDy is compared twice): SetDz accepts a negative value, and the tube then holds no point and has a negative capacity. *)
Theorem C86_dz_refuted perimeter : ¬ (∀ t v, t = mk_elltube perimeter 1 1 1 → 2 * kTolerance <= et_dz (et_set_dz perimeter t v)) ∧
  (let t := et_set_dz perimeter (mk_elltube perimeter 1 1 1) (-1) in (∀ p, et_contains t p = false) ∧ et_capacity t < 0).
Proof.
  pose proof tol_less as T. pose proof PI_RGT_0 as P. assert (H1 : 2 * kTolerance <= 1) by lra. assert (E : et_set_dz perimeter (mk_elltube perimeter 1 1 1) (-1) = mk_elltube perimeter 1 1 (-1)) by (apply (C86_setters perimeter 1 1 1 (-1)); lra). split; [|split].
  - intros H. specialize (H _ (-1) eq_refl). rewrite E in H. destruct (C86_make perimeter 1 1 (-1)) as (_ & _ & D & _). destruct (D H1 H1) as (_ & _ & DZ). rewrite DZ in H. lra.
  - intros p. rewrite E. apply not_true_is_false. rewrite contains_moved by done. intros [A _]. pose proof (Rabs_pos (vz p)). unfold kHalfTolerance in A. lra.
  - rewrite E. destruct (C86_measures perimeter 1 1 (-1) H1 H1) as [-> _]. lra.
Qed.
Print Assumptions C86_dz_refuted.
