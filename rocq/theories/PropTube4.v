(** C85: members, measures, samples, convexity, extent and normals of tubes. *)
From Coq Require Import Reals Lra Lia Bool ZArith Psatz.
From stdpp Require Import base list option numbers tactics.
From Verif Require Import Real3 AABBModel BoxModel BoxProofs PlanesModel PlanesProofs ConeModel ConeSpec ConeProofs WedgeModel WedgeSpec WedgeProofs WedgeProofs2 TetModel TrdModel TubeModel TubeSpec TubeProofs TubeProofs2 TubeProofs3 PropTrd3 PropTube2 PropTube3.
Import stdpp.list.
Local Open Scope R_scope.

(** The setters of the radii and of the length, in any order: the tube is the new tube with the last values. *)
Inductive tube_op := OpRmin (v : R) | OpRmax (v : R) | OpDz (v : R).
Definition run_op (t : tube) (o : tube_op) : tube := match o with OpRmin v => set_rmin t v | OpRmax v => set_rmax t v | OpDz v => set_dz t v end.
Fixpoint last_rmin (l : list tube_op) (m : R) : R := match l with [] => m | OpRmin v :: l => last_rmin l v | _ :: l => last_rmin l m end.
Fixpoint last_rmax (l : list tube_op) (M : R) : R := match l with [] => M | OpRmax v :: l => last_rmax l v | _ :: l => last_rmax l M end.
Fixpoint last_dz (l : list tube_op) (Z : R) : R := match l with [] => Z | OpDz v :: l => last_dz l v | _ :: l => last_dz l Z end.
Theorem C85_setters l m M Z s d : 0 <= m → (∀ v, In (OpRmin v) l → 0 <= v) →
  foldl run_op (tube_struct m M Z s d) l = tube_struct (last_rmin l m) (last_rmax l M) (last_dz l Z) s d.
Proof.
  revert m M Z. induction l as [|o l IH]; intros m M Z Hm H; [done|]. cbn [foldl]. assert (Hl : ∀ v, In (OpRmin v) l → 0 <= v) by (intros v V; apply H; by right).
  destruct o as [v|v|v]; cbn [run_op last_rmin last_rmax last_dz].
  - assert (V : 0 <= v) by (apply H; by left). rewrite <- IH by done. f_equal; try (rewrite !tube_struct_eq by done; reflexivity).
  - rewrite <- IH by done. f_equal; try (rewrite !tube_struct_eq by done; reflexivity).
  - rewrite <- IH by done. f_equal; try (rewrite !tube_struct_eq by done; reflexivity).
Qed.
Print Assumptions C85_setters.
Example setters_pipe : foldl run_op (tube_struct 1 3 2 0 PI) [OpDz 5; OpRmin 2; OpRmax 4; OpRmin 0] = tube_struct 0 4 5 0 PI.
Proof. rewrite C85_setters; [done|lra|]. intros v [|[[=<-]|[|[[=<-]|[]]]]]; try done; lra. Qed.
(** SetRMin with a negative radius does not take it for zero as the constructor does: the capacity shrinks. *)
Theorem C85_set_rmin_refuted : ¬ ∀ m M Z s d v, 0 <= m < M → 0 < Z → 0 < d <= 2 * PI → tube_capacity (set_rmin (tube_struct m M Z s d) v) = tube_capacity (tube_struct v M Z s d).
Proof.
  intros H. pose proof PI_RGT_0. specialize (H 0 3 1 0 PI (-1) ltac:(lra) ltac:(lra) ltac:(lra)). rewrite tube_struct_eq in H by lra. rewrite (tube_struct_neg (-1)) in H by lra. unfold tube_capacity in H. cbn in H. lra.
Qed.
Print Assumptions C85_set_rmin_refuted.
(** SetSPhi turns the vectors along the sides but not the wedge: Contains stays, whatever the new start. *)
Theorem C85_set_sphi_stale k t s p : tube_contains k (set_sphi t s) p = tube_contains k t p ∧ tube_inside k (set_sphi t s) p = tube_inside k t p.
Proof. done. Qed.
Print Assumptions C85_set_sphi_stale.
Theorem C85_set_sphi_refuted : ¬ ∀ k m M Z s d s' p, 0 <= m < M → 0 < Z → 0 < d <= 2 * PI → tube_fits k m d →
  tube_contains k (set_sphi (tube_struct m M Z s d) s') p = true → tube_solid m M Z s' d p.
Proof.
  intros H. pose proof PI_RGT_0 as P. specialize (H UniversalTube 0 3 2 0 PI PI (V3 0 1 0) ltac:(lra) ltac:(lra) ltac:(lra) I). destruct H as (_ & _ & _ & H).
  - destruct (C85_set_sphi_stale UniversalTube (tube_struct 0 3 2 0 PI) PI (V3 0 1 0)) as [-> _]. rewrite tube_struct_eq by lra. apply contains_solid; [lra|lra|lra|done|]. split; [cbn [vz]; rewrite Rabs_R0; lra|]. split; [rewrite (rho_at _ _ _ 1); lra|]. split; [lra|]. intros _.
    apply by_sides'; [lra|]. unfold side. cbn [vx vy]. rewrite Rplus_0_l, cos_0, sin_0, cos_PI, sin_PI. split; intros; lra.
  - specialize (H ltac:(lra)). apply by_sides' in H as [H _]; [|lra]. destruct (H ltac:(lra)) as [H1 _]. unfold side in H1. cbn [vx vy] in H1. rewrite cos_PI, sin_PI in H1. lra.
Qed.
Print Assumptions C85_set_sphi_refuted.
(** The same of SetDPhi, as long as both openings are less than a full turn. *)
Theorem C85_set_dphi_stale k t d p : tb_dphi t < 2 * PI → d < 2 * PI - 5 / 10 * / 1000000000 → tube_contains k (set_dphi t d) p = tube_contains k t p ∧ tube_inside k (set_dphi t d) p = tube_inside k t p.
Proof.
  intros H1 H2. assert (E : tube_phi k (set_dphi t d) = tube_phi k t).
  { unfold tube_phi. destruct (sector_type k); try done. unfold set_dphi. destruct (rgeb_spec d (2 * PI - 5 / 10 * / 1000000000)); [lra|]. destruct (rgtb_spec d 0); [|done]. cbn. destruct (rltb_spec d (2 * PI)), (rltb_spec (tb_dphi t) (2 * PI)); try done; lra. }
  assert (F : ∀ fi, tube_kernel k (set_dphi t d) fi p = tube_kernel k t fi p).
  { intros fi. unfold tube_kernel. rewrite E. unfold set_dphi. destruct (rgeb_spec d (2 * PI - 5 / 10 * / 1000000000)); [lra|]. by destruct (rgtb d 0). }
  unfold tube_contains, tube_inside. by rewrite !F.
Qed.
Print Assumptions C85_set_dphi_stale.
(** The maker: the type fits, and the tube is the one asked for. *)
Theorem C85_make generic m M Z s d : 0 < d → (generic = true → d <= 2 * PI) → let '(k, t) := make_tube generic m M Z s d in
  tube_fits k (Rmax m 0) (Rmin d (2 * PI)) ∧ t = tube_struct m M Z s (Rmin d (2 * PI)).
Proof.
  intros Hd Hg. pose proof PI_RGT_0. unfold make_tube. destruct generic; [specialize (Hg eq_refl); rewrite Rmin_left by done; done|]. clear Hg.
  assert (F : ∀ a, angle_fits a (Rmin d (2 * PI)) → tube_fits ((if rleb m 0 then NonHollow else Hollow) a) (Rmax m 0) (Rmin d (2 * PI))) by (intros a A; destruct (rleb_spec m 0); cbn; [rewrite Rmax_right by lra|]; done).
  destruct (rgeb_spec d (2 * PI)) as [G|G]; [split; [apply F; apply Rmin_right; lra|rewrite Rmin_right by lra; done]|]. assert (E : Rmin d (2 * PI) = d) by (apply Rmin_left; lra).
  destruct (reqb_spec d PI) as [G1|G1]; [split; [apply F; rewrite E; done|by rewrite E]|]. destruct (rltb_spec d PI) as [G2|G2]; (split; [apply F; rewrite E; cbn; lra|by rewrite E]).
Qed.
Print Assumptions C85_make.
Example make_half : make_tube false 0 3 2 1 PI = (NonHollow kOnePi, tube_struct 0 3 2 1 PI).
Proof. pose proof PI_RGT_0. unfold make_tube. destruct (rleb_spec 0 0); [|lra]. destruct (rgeb_spec PI (2 * PI)); [lra|]. by destruct (reqb_spec PI PI). Qed.
(** Every kernel of the made tube decides the solid asked for. *)
Theorem C85_make_contains generic m M Z s d p : m < M → 0 < M → 0 < Z → 0 < d → (generic = true → d <= 2 * PI) → let '(k, t) := make_tube generic m M Z s d in
  tube_contains k t p = true ↔ tube_solid (Rmax m 0) M Z s (Rmin d (2 * PI)) p.
Proof.
  intros Hm HM HZ Hd Hg. pose proof PI_RGT_0. pose proof (C85_make generic m M Z s d Hd Hg) as K. destruct (make_tube generic m M Z s d) as [k t]. destruct K as [K ->]. assert (D : 0 < Rmin d (2 * PI) <= 2 * PI) by (split; [apply Rmin_pos; lra|apply Rmin_r]).
  destruct (Rle_dec 0 m) as [L|L].
  - rewrite Rmax_left in * by done. rewrite tube_struct_eq by done. apply contains_solid; [lra|done|done|done].
  - rewrite Rmax_right in * by lra. rewrite tube_struct_neg by lra. apply contains_solid; [lra|done|done|done].
Qed.
Print Assumptions C85_make_contains.

Section Measure.
Variables m M Z s d : R.
Hypothesis Hm : 0 <= m < M.
Hypothesis HZ : 0 < Z.
Hypothesis Hd : 0 < d <= 2 * PI.
Let t := tube_struct m M Z s d.
Lemma t_eq : t = tb m M Z s d.
Proof using Hm. apply tube_struct_eq, (proj1 Hm). Qed.
(** The capacity: the integral over the radius of the areas of the cylinder sheets, arc times length. *)
Theorem C85_capacity : ∃ F : R → R, (∀ r, derivable_pt_lim F r (r * d * (2 * Z))) ∧ tube_capacity t = F M - F m.
Proof using Hm.
  exists (λ r, Z * d * (r * r)). split; [|rewrite t_eq; unfold tube_capacity; cbn; ring].
  intros r. replace (r * d * (2 * Z)) with (Z * d * (1 * r + r * 1)) by ring. apply (derivable_pt_lim_scal (λ r, r * r) (Z * d)). apply (derivable_pt_lim_mult id id); apply derivable_pt_lim_id.
Qed.
(** The six pieces of the surface: lids, sides (none for a full turn), inner and outer wall. *)
Definition piece_area (i : nat) : R :=
  match i with 0%nat | 1%nat => d / 2 * (M * M - m * m) | 2%nat | 3%nat => if rltb d (2 * PI) then 2 * Z * (M - m) else 0 | 4%nat => m * d * (2 * Z) | 5%nat => M * d * (2 * Z) | _ => 0 end.
Definition pieces_upto (i : nat) : R := foldr Rplus 0 (List.map piece_area (seq 0 i)).
Theorem C85_area : tube_area t = pieces_upto 6.
Proof using Hm. rewrite t_eq. unfold tube_area, top_area, phi_area, rout_area, rin_area, pieces_upto. cbn. destruct (rltb d (2 * PI)); field. Qed.
Lemma shares_eq : tube_shares t = List.map piece_area (seq 0 6).
Proof using Hm. rewrite t_eq. unfold tube_shares, top_area, phi_area, rout_area, rin_area. cbn. destruct (rltb d (2 * PI)); repeat (apply (f_equal2 cons); [field|]); done. Qed.
Theorem C85_choose r : 0 <= r <= 1 → ∃ i, tube_choose t r = Some i ∧ (i < 6)%nat ∧ (pieces_upto i < r * tube_area t ∨ i = 0%nat) ∧ r * tube_area t <= pieces_upto (Datatypes.S i).
Proof using Hm HZ Hd.
  intros Hr. rewrite C85_area. assert (N : ∀ i, 0 <= piece_area i).
  { intros i. do 6 (destruct i as [|i]; [cbn [piece_area]; try destruct (rltb d (2 * PI)); try lra; repeat apply Rmult_le_pos; try lra; nra|]). cbn. lra. }
  assert (F : Forall (Rle 0) (tube_shares t)). { rewrite shares_eq. apply Forall_forall. intros x Hx. apply elem_of_list_In, in_map_iff in Hx as (i & <- & _). apply N. }
  assert (Tot : foldr Rplus 0 (tube_shares t) = pieces_upto 6) by (by rewrite shares_eq).
  assert (Up : ∀ i, (i <= 6)%nat → take i (tube_shares t) = List.map piece_area (seq 0 i)). { intros i Hi. rewrite shares_eq. do 7 (destruct i as [|i]; [reflexivity|]). lia. }
  destruct (pick_some (r * pieces_upto 6) (tube_shares t) F) as (i & E & L & A & D).
  - rewrite Tot. assert (0 <= pieces_upto 6) by (rewrite <- Tot; clear - F; induction F; cbn; lra). nra.
  - by rewrite shares_eq.
  - assert (L6 : (i < 6)%nat) by (rewrite shares_eq, map_length, seq_length in L; exact L). exists i. split; [unfold tube_choose; rewrite foldl_sum, Rplus_0_l, Tot; exact E|]. split; [done|]. unfold pieces_upto at 1 4. rewrite <- !Up by lia. done.
Qed.
(** The points of the pieces. *)
Definition piece (i : nat) (p : v3) : Prop :=
  match i with
  | 0%nat => vz p = Z ∧ m <= rho p <= M ∧ sector s d (vx p) (vy p)
  | 1%nat => vz p = - Z ∧ m <= rho p <= M ∧ sector s d (vx p) (vy p)
  | 2%nat => Rabs (vz p) <= Z ∧ m <= rho p <= M ∧ half_line s (vx p) (vy p)
  | 3%nat => Rabs (vz p) <= Z ∧ m <= rho p <= M ∧ half_line (s + d) (vx p) (vy p)
  | 4%nat => Rabs (vz p) <= Z ∧ rho p = m ∧ sector s d (vx p) (vy p)
  | _ => Rabs (vz p) <= Z ∧ rho p = M ∧ sector s d (vx p) (vy p)
  end.
Lemma rho_polar r phi z : 0 <= r → rho (V3 (r * cos phi) (r * sin phi) z) = r.
Proof using. intros H. apply rho_at; [done|]. pose proof (sin2_cos2 phi) as E. unfold Rsqr in E. nra. Qed.
Lemma between_share a b x : a < b → a <= x <= b → ∃ u, 0 <= u <= 1 ∧ a + (b - a) * u = x.
Proof using.
  intros H X. exists ((x - a) / (b - a)). assert (E : (x - a) / (b - a) * (b - a) = x - a) by (field; lra). split; [|lra]. split; [apply Rmult_le_pos; [lra|left; apply Rinv_0_lt_compat; lra]|]. apply (Rmult_le_reg_r (b - a)); lra.
Qed.
Lemma disc_between a : m * m <= a <= M * M → m <= R_sqrt.sqrt a <= M.
Proof using Hm.
  intros H. assert (0 <= m * m) by (apply Rmult_le_pos; lra). split.
  - rewrite <- (sqrt_square m) by lra. apply sqrt_le_1; lra.
  - rewrite <- (sqrt_square M) by lra. apply sqrt_le_1; lra.
Qed.
(** Samples: those of the piece chosen, all of them. *)
Theorem C85_sample r i p : tube_choose t r = Some i → (i < 6)%nat →
  (∃ ur uphi uz ur2, 0 <= ur <= 1 ∧ 0 <= uphi <= 1 ∧ 0 <= uz <= 1 ∧ 0 <= ur2 <= 1 ∧ tube_sample t r ur uphi uz ur2 = Some p) ↔ piece i p.
Proof using Hm HZ Hd.
  intros E Hi. unfold tube_sample. rewrite E. cbn [mbind option_bind]. rewrite t_eq. cbn [tb tb_rmin tb_rmax tb_z tb_sphi tb_dphi].
  assert (MM : 0 < M * M - m * m) by nra. split.
  - intros (ur & up & uz & ur2 & U1 & U2 & U3 & U4 & G). assert (A1 : m <= m + (M - m) * ur <= M) by nra. set (rv := m + (M - m) * ur) in *. clearbody rv.
    assert (A2 : s <= s + (s + d - s) * up <= s + d) by nra. set (pv := s + (s + d - s) * up) in *. clearbody pv. assert (A3 : Rabs (uz * 2 * Z - Z) <= Z) by (apply Rabs_le; nra). set (zv := uz * 2 * Z - Z) in *. clearbody zv.
    assert (A4 : m <= R_sqrt.sqrt (m * m + (M * M - m * m) * ur2) <= M).
    { assert (B : m * m <= m * m + (M * M - m * m) * ur2 <= M * M) by nra. apply disc_between; lra. }
    set (dv := R_sqrt.sqrt _) in *. clearbody dv. assert (SE : ∀ r phi, 0 <= r → s <= phi <= s + d → sector s d (r * cos phi) (r * sin phi)) by (intros r0 phi R0 PH; exists phi; split; [done|]; exists r0; done).
    assert (HL : ∀ r phi, 0 <= r → half_line phi (r * cos phi) (r * sin phi)) by (intros r0 phi R0; exists r0; done).
    do 6 (destruct i as [|i]; [injection G as <-; cbn [piece vx vy vz]; rewrite rho_polar by lra; (split; [done|split; [done|first [apply SE; lra|apply HL; lra]]])|]). lia.
  - intros HP. assert (SP : ∀ P, (∃ ur uphi uz ur2, 0 <= ur <= 1 ∧ 0 <= uphi <= 1 ∧ 0 <= uz <= 1 ∧ 0 <= ur2 <= 1 ∧ P (m + (M - m) * ur) (s + (s + d - s) * uphi) (uz * 2 * Z - Z) (R_sqrt.sqrt (m * m + (M * M - m * m) * ur2))) ↔
      (∃ a phi z c, m <= a <= M ∧ s <= phi <= s + d ∧ - Z <= z <= Z ∧ m <= c <= M ∧ P a phi z c)).
    { intros P. split; [intros (ur & up & uz & ur2 & U1 & U2 & U3 & U4 & G)|intros (a & phi & z & c & U1 & U2 & U3 & U4 & G)].
      - exists (m + (M - m) * ur), (s + (s + d - s) * up), (uz * 2 * Z - Z), (R_sqrt.sqrt (m * m + (M * M - m * m) * ur2)). split; [nra|]. split; [nra|]. split; [nra|]. split; [|done].
        assert (B : m * m <= m * m + (M * M - m * m) * ur2 <= M * M) by nra. apply disc_between; lra.
      - destruct (between_share m M a ltac:(lra) U1) as (ur & V1 & W1). destruct (between_share s (s + d) phi ltac:(lra) U2) as (up & V2 & W2). destruct (between_share (- Z) Z z ltac:(lra) U3) as (uz & V3 & W3). destruct (between_share (m * m) (M * M) (c * c) ltac:(lra) ltac:(nra)) as (ur2 & V4 & W4).
        exists ur, up, uz, ur2. split; [done|]. split; [done|]. split; [done|]. split; [done|]. rewrite W1, W2, W4. replace (uz * 2 * Z - Z) with z by lra. rewrite sqrt_square by lra. done. }
    assert (G : ∃ a phi z c, m <= a <= M ∧ s <= phi <= s + d ∧ - Z <= z <= Z ∧ m <= c <= M ∧
      (let '(rVal, phiVal, zVal) := match i with 0%nat => (c, phi, Z) | 1%nat => (c, phi, - Z) | 2%nat => (a, s, z) | 3%nat => (a, s + d, z) | 4%nat => (m, phi, z) | _ => (M, phi, z) end in Some (V3 (rVal * cos phiVal) (rVal * sin phiVal) zVal)) = Some p);
      [|exact (proj2 (SP (λ a phi z c, (let '(rVal, phiVal, zVal) := match i with 0%nat => (c, phi, Z) | 1%nat => (c, phi, - Z) | 2%nat => (a, s, z) | 3%nat => (a, s + d, z) | 4%nat => (m, phi, z) | _ => (M, phi, z) end in Some (V3 (rVal * cos phiVal) (rVal * sin phiVal) zVal)) = Some p)) G)].
    clear SP. destruct p as [x y z0]. assert (SQ : ∀ x y, sector s d x y → ∃ phi, s <= phi <= s + d ∧ x = rho (V3 x y z0) * cos phi ∧ y = rho (V3 x y z0) * sin phi).
    { intros x' y' (phi & PH & r0 & R0 & -> & ->). exists phi. split; [done|]. rewrite rho_polar by done. done. }
    assert (HQ : ∀ phi, half_line phi x y → x = rho (V3 x y z0) * cos phi ∧ y = rho (V3 x y z0) * sin phi) by (intros phi (r0 & R0 & -> & ->); rewrite rho_polar by done; done).
    set (rr := rho (V3 x y z0)) in *.
    destruct i as [|[|[|[|[|i]]]]]; cbn [piece vx vy vz] in HP; fold rr in HP; destruct HP as (H1 & H2 & H3).
    + destruct (SQ _ _ H3) as (phi & PH & Ex & Ey). fold rr in Ex, Ey. exists m, phi, Z, rr. split; [lra|]. split; [done|]. split; [lra|]. split; [done|]. by rewrite H1, Ex, Ey at 1.
    + destruct (SQ _ _ H3) as (phi & PH & Ex & Ey). fold rr in Ex, Ey. exists m, phi, Z, rr. split; [lra|]. split; [done|]. split; [lra|]. split; [done|]. by rewrite H1, Ex, Ey at 1.
    + destruct (HQ _ H3) as (Ex & Ey). apply abs_le in H1. exists rr, s, z0, m. split; [done|]. split; [lra|]. split; [lra|]. split; [lra|]. by rewrite Ex, Ey at 1.
    + destruct (HQ _ H3) as (Ex & Ey). apply abs_le in H1. exists rr, s, z0, m. split; [done|]. split; [lra|]. split; [lra|]. split; [lra|]. by rewrite Ex, Ey at 1.
    + destruct (SQ _ _ H3) as (phi & PH & Ex & Ey). fold rr in Ex, Ey. apply abs_le in H1. exists m, phi, z0, m. split; [lra|]. split; [done|]. split; [lra|]. split; [lra|]. rewrite H2 in Ex, Ey. by rewrite Ex, Ey at 1.
    + destruct (SQ _ _ H3) as (phi & PH & Ex & Ey). fold rr in Ex, Ey. apply abs_le in H1. exists m, phi, z0, m. split; [lra|]. split; [done|]. split; [lra|]. split; [lra|]. destruct i; [|lia]. rewrite H2 in Ex, Ey. by rewrite Ex, Ey at 1.
Qed.
(** Each piece lies on the tube. *)
Theorem C85_piece i p : (i < 6)%nat → (d = 2 * PI → i ≠ 2%nat ∧ i ≠ 3%nat) → piece i p → tube_closed m M Z s d p.
Proof using Hm HZ Hd.
  intros Hi Hn HP. assert (LS : ∀ phi, s <= phi <= s + d → half_line phi (vx p) (vy p) → sector s d (vx p) (vy p)) by (intros phi H1 H2; exists phi; done).
  destruct i as [|[|[|[|[|[|i]]]]]]; try lia; cbn [piece] in HP; destruct HP as (H1 & H2 & H3).
  - split; [rewrite H1, Rabs_pos_eq; lra|]. split; [done|]. intros _. done.
  - split; [rewrite H1, Rabs_Ropp, Rabs_pos_eq; lra|]. split; [done|]. intros _. done.
  - split; [done|]. split; [done|]. intros _. apply (LS s); [lra|done].
  - split; [done|]. split; [done|]. intros _. apply (LS (s + d)); [lra|done].
  - split; [done|]. split; [lra|]. intros _. done.
  - split; [done|]. split; [lra|]. intros _. done.
Qed.
End Measure.
Print Assumptions C85_capacity.
Print Assumptions C85_area.
Print Assumptions C85_choose.
Print Assumptions C85_sample.
Print Assumptions C85_piece.
Example measures_pipe : tube_area (tube_struct 1 3 2 0 (2 * PI)) = 48 * PI ∧ tube_choose (tube_struct 1 3 2 0 (2 * PI)) (3 / 4) = Some 5%nat.
Proof.
  pose proof PI_RGT_0. assert (U : ∀ i, pieces_upto 1 3 2 (2 * PI) i = match i with 0%nat => 0 | 1%nat => 8 * PI | 2%nat | 3%nat | 4%nat => 16 * PI | 5%nat => 24 * PI | _ => pieces_upto 1 3 2 (2 * PI) i end).
  { intros i. unfold pieces_upto. destruct i as [|[|[|[|[|[|i]]]]]]; try done; cbn; destruct (rltb_spec (2 * PI) (2 * PI)); try lra. }
  assert (A : tube_area (tube_struct 1 3 2 0 (2 * PI)) = 48 * PI). { rewrite C85_area by lra. unfold pieces_upto. cbn. destruct (rltb_spec (2 * PI) (2 * PI)); lra. }
  split; [done|]. destruct (C85_choose 1 3 2 0 (2 * PI) ltac:(lra) ltac:(lra) ltac:(lra) (3 / 4) ltac:(lra)) as (i & E & L & B & C). rewrite E. rewrite A in B, C. f_equal. rewrite U in C.
  destruct i as [|[|[|[|[|[|i]]]]]]; try lia; try lra.
Qed.
