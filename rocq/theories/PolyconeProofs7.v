(** Polycones: points beyond the ends, markers, start sections, steps of the radius, capacity. *)
From Coq Require Import Reals Lra Lia Bool.
From stdpp Require Import base list option numbers tactics.
From Verif Require Import Real3 AABBModel BoxModel ConeModel ConeSpec ConeProofs PolyconeModel PolyconeSpec PolyconeProofs PolyconeProofs2 PolyconeProofs3 PolyconeProofs4 PolyconeProofs5 PolyconeProofs6.
Import stdpp.list.
Local Open Scope R_scope.

Section beyond.
Variables (inf : R) (t : cone_type) (w : wedge_ops) (W : R → R → Prop) (dphi : R) (pls : list plane) (pc : polycone).
Let l := oriented pls.
Hypothesis Hs : stacked (2 * kTolerance) l.
Hypothesis Hr : radii_ok l.
Hypothesis Hf : ∀ a b, adjacent l a b → fits t (pl_rmin a) (pl_rmin b) dphi.
Hypothesis Hc : construct inf w dphi pls = Some pc.

Lemma safety_beyond p q r a b : wedge_safe w W → poly_safety_in t pc p = Some r → adjacent l a b → joins a b q → in_phi dphi W q →
  (vz p < pl_z a ∧ ∀ x, x ∈ l → pl_z a <= pl_z x) ∨ (pl_z b < vz p ∧ ∀ x, x ∈ l → pl_z x <= pl_z b) → r <= vdist p q.
Proof using Hs Hr Hf Hc.
  intros Hw Hsf Hab Hj Hp Hend. pose proof (pc_spans inf w dphi pls pc Hs Hc) as Hsp. pose proof (pc_increasing inf w dphi pls pc Hs Hc) as Hinc.
  destruct (planes_section inf w dphi pls pc Hs Hc a b Hab (proj1 Hj)) as (k & s & Hk & Hi).
  pose proof (section_safety_in t w W dphi pls pc Hr Hf k s a b p q Hw Hi (conj Hj Hp)) as Hle.
  pose proof (lookup_lt_Some _ _ _ Hk) as Hlt. pose proof (is_low _ _ _ _ _ _ _ _ Hi) as Hlo. pose proof (is_high _ _ _ _ _ _ _ _ Hi) as Hhi.
  assert (Hx : ∀ j z, pc_zs pc !! j = Some z → ∃ x, x ∈ l ∧ pl_z x = z).
  { intros j z Hz. pose proof (lookup_lt_Some _ _ _ Hz) as Hjl. rewrite (proj1 Hsp) in Hjl. destruct j as [|j].
    - destruct (section_at pc 0) as (s0 & Hs0 & _); [lia|]. destruct (section_planes inf w dphi pls pc Hs Hc 0 s0 Hs0) as (x & y & H0).
      exists x. split; [by destruct (adjacent_elem _ _ _ (is_adj _ _ _ _ _ _ _ _ H0))|]. pose proof (is_low _ _ _ _ _ _ _ _ H0). congruence.
    - destruct (section_at pc j) as (s0 & Hs0 & _); [lia|]. destruct (section_planes inf w dphi pls pc Hs Hc j s0 Hs0) as (x & y & H0).
      exists y. split; [by destruct (adjacent_elem _ _ _ (is_adj _ _ _ _ _ _ _ _ H0))|]. pose proof (is_high _ _ _ _ _ _ _ _ H0). congruence. }
  unfold poly_safety_in in Hsf. destruct (section_index_located pc (vz p) (proj1 Hsp) Hinc) as (i & Ei & Hl). rewrite Ei in Hsf. cbn [mbind option_bind] in Hsf.
  destruct Hend as [[Hz Hall]|[Hz Hall]].
  - assert (k = 0%nat) as ->.
    { destruct k as [|k]; [done|exfalso]. destruct (zs_at pc Hsp 0) as [z0 Hz0]; [lia|]. destruct (Hx _ _ Hz0) as (x & Hxl & <-). specialize (Hall x Hxl).
      pose proof (Hinc 0%nat (S k) _ _ ltac:(lia) Hz0 Hlo). lra. }
    destruct Hl as [z0 Hz0 Hl|z0 z1 Hz0 Hge Hz1 Hn|j c d Hj' Hcj Hdj Hzj _].
    + change (if (-1 =? -1)%Z then 0%Z else if (-1 =? -2)%Z then (nsections pc - 1)%Z else (-1)%Z) with (Z.of_nat 0) in Hsf. rewrite (get_section_at pc 0 s Hk) in Hsf. cbn [mbind option_bind] in Hsf.
      injection Hsf as <-. done.
    + rewrite Hz0 in Hlo. injection Hlo as ->. lra.
    + pose proof (increasing_le _ 0 j _ _ Hinc ltac:(lia) Hlo Hcj). lra.
  - assert (Ek : S k = length (pc_sections pc)).
    { destruct (decide (S k = length (pc_sections pc))) as [|Hne]; [done|exfalso]. destruct (zs_at pc Hsp (length (pc_sections pc))) as [z0 Hz0]; [lia|].
      destruct (Hx _ _ Hz0) as (x & Hxl & <-). specialize (Hall x Hxl). pose proof (Hinc (S k) (length (pc_sections pc)) _ _ ltac:(lia) Hhi Hz0). lra. }
    destruct Hl as [z0 Hz0 Hl|z0 z1 Hz0 Hge Hz1 Hn|j c d Hj' Hcj Hdj Hzj _].
    + pose proof (increasing_le _ 0 (S k) _ _ Hinc ltac:(lia) Hz0 Hhi). lra.
    + change (if (-2 =? -1)%Z then 0%Z else if (-2 =? -2)%Z then (nsections pc - 1)%Z else (-2)%Z) with (nsections pc - 1)%Z in Hsf.
      unfold nsections in Hsf. replace (Z.of_nat (length (pc_sections pc)) - 1)%Z with (Z.of_nat k) in Hsf by lia.
      rewrite (get_section_at pc k s Hk) in Hsf. cbn [mbind option_bind] in Hsf. injection Hsf as <-. done.
    + pose proof (increasing_le _ (S j) (S k) _ _ Hinc ltac:(lia) Hdj Hhi). lra.
Qed.
End beyond.
Lemma outside_marker inf t pc p : poly_inside t pc p = Some kOutside → poly_safety_out inf t pc p = Some (-1).
Proof.
  unfold poly_inside, poly_safety_out. destruct (poly_kernel t true pc p) as [[inn out]|]; [|done]. cbn [mbind option_bind].
  destruct inn; [done|]. by destruct out.
Qed.
(** Where the walk to the outside starts. *)
Lemma start_section_spec t pc p low high slow shigh : section_index pc (vz p - kTolerance) = Some low → section_index pc (vz p + kTolerance) = Some high →
  (0 <= low)%Z → (0 <= high)%Z → get_section pc low = Some slow → get_section pc high = Some shigh →
  start_section t pc p = Some (if section_outside t slow p then if section_outside t shigh p then inl (-1) else inr high else inr low).
Proof.
  intros El Eh Hl Hh Gl Gh. unfold start_section. rewrite El, Eh. cbn [mbind option_bind].
  destruct (Z.ltb_spec low 0); [lia|]. destruct (Z.ltb_spec high 0); [lia|]. cbn [andb]. rewrite (proj2 (Z.leb_le 0 low)) by done.
  destruct (Z.eqb_spec low high) as [->|Hne]; cbn [negb andb mbind option_bind].
  - destruct (Z.ltb_spec high 0); [lia|]. rewrite Gl in Gh. injection Gh as ->. rewrite Gl. cbn [mbind option_bind]. by destruct (section_outside t shigh p).
  - rewrite Gl. cbn [mbind option_bind]. destruct (section_outside t slow p) eqn:Eo.
    + destruct (Z.ltb_spec high 0); [lia|]. rewrite Gh. cbn [mbind option_bind]. by destruct (section_outside t shigh p).
    + destruct (Z.ltb_spec low 0); [lia|]. rewrite Gl. cbn [mbind option_bind]. by rewrite Eo.
Qed.
(** A step of the outer radius. *)
Lemma step_detected inf w dphi z0 z1 z2 r s pc : z0 < z1 → z1 < z2 → r <> s →
  construct inf w dphi [Plane z0 0 r; Plane z1 0 r; Plane z1 0 s; Plane z2 0 s] = Some pc → detect_convexity pc = false.
Proof.
  intros H1 H2 Hrs. unfold construct, init.
  assert (Eo : oriented [Plane z0 0 r; Plane z1 0 r; Plane z1 0 s; Plane z2 0 s] = [Plane z0 0 r; Plane z1 0 r; Plane z1 0 s; Plane z2 0 s]).
  { unfold oriented. cbn. destruct (rgtb_spec z0 z2); [lra|done]. }
  rewrite Eo.
  assert (Hr : reduced [Plane z0 0 r; Plane z1 0 r; Plane z1 0 s; Plane z2 0 s] = [(Plane z0 0 r, Plane z1 0 r); (Plane z1 0 s, Plane z2 0 s)]).
  { unfold reduced, doubled. cbn [doubled_rest pl_z pl_rmax]. destruct (reqb_spec z1 z1); [|lra]. destruct (reqb_spec r s); [lra|]. cbn [negb orb].
    destruct (reqb_spec z1 z2); [lra|]. cbn [negb orb app].
    unfold evened. cbn [length Nat.odd Nat.even negb paired pl_z]. destruct (reqb_spec z0 z1); [lra|]. destruct (reqb_spec z1 z1); [|lra]. destruct (reqb_spec z1 z2); [lra|]. done. }
  rewrite Hr. destruct (init_loop _ _ _ _ _ _ _ _) as [[zs secs]|]; [|done]. cbn [mbind option_bind]. intros [= <-].
  unfold detect_convexity. cbn [pc_convexity pc_equal_rmax pc_dphi pc_continuity].
  assert (E1 : check_continuity inf [(Plane z0 0 r, Plane z1 0 r); (Plane z1 0 s, Plane z2 0 s)] = false).
  { unfold check_continuity. cbn. destruct (reqb_spec r s); [done|done]. }
  rewrite E1. cbn [flat mbind list_bind app fst snd tail equal_rmax pl_rmax]. destruct (reqb_spec r s); [lra|].
  destruct (reqb_spec r r); [|lra]. cbn [andb]. by repeat match goal with |- context [if ?b then _ else _] => destruct b end.
Qed.
(** Capacity: the integral of the area of the cross sections. *)
Lemma poly_deriv c d e z : derivable_pt_lim (λ z, c * z + d * (z * z) + e * (z * (z * z))) z (c + d * (2 * z) + e * (3 * (z * z))).
Proof.
  pose proof (derivable_pt_lim_id z) as I. pose proof (derivable_pt_lim_mult _ _ _ _ _ I I) as I2. pose proof (derivable_pt_lim_mult _ _ _ _ _ I I2) as I3.
  pose proof (derivable_pt_lim_plus _ _ _ _ _ (derivable_pt_lim_plus _ _ _ _ _ (derivable_pt_lim_scal _ c _ _ I) (derivable_pt_lim_scal _ d _ _ I2)) (derivable_pt_lim_scal _ e _ _ I3)) as H.
  unfold mult_real_fct, mult_fct, plus_fct, id in H. replace (c + d * (2 * z) + e * (3 * (z * z))) with (c * 1 + d * (1 * z + z * 1) + e * (1 * (z * z) + z * (1 * z + z * 1))) by ring. exact H.
Qed.
Lemma frustum_integral m1 M1 m2 M2 z1 z2 phi : z1 < z2 →
  ∃ F : R → R, (∀ z, derivable_pt_lim F z (phi / 2 * (line z1 M1 z2 M2 z * line z1 M1 z2 M2 z - line z1 m1 z2 m2 z * line z1 m1 z2 m2 z))) ∧
  F z2 - F z1 = (z2 - z1) / 2 * phi / 3 * (M1 * M1 + M2 * M2 + M1 * M2 - m1 * m1 - m2 * m2 - m1 * m2).
Proof.
  intros Hz. set (bM := (M2 - M1) / (z2 - z1)). set (aM := M1 - bM * z1). set (bm := (m2 - m1) / (z2 - z1)). set (am := m1 - bm * z1).
  assert (LM : ∀ z, line z1 M1 z2 M2 z = aM + bM * z) by (intros z; unfold line, aM, bM; field; lra).
  assert (Lm : ∀ z, line z1 m1 z2 m2 z = am + bm * z) by (intros z; unfold line, am, bm; field; lra).
  exists (λ z, phi / 2 * (aM * aM - am * am) * z + phi / 2 * (aM * bM - am * bm) * (z * z) + phi / 6 * (bM * bM - bm * bm) * (z * (z * z))). split.
  - intros z. rewrite LM, Lm. 
    replace (phi / 2 * ((aM + bM * z) * (aM + bM * z) - (am + bm * z) * (am + bm * z))) with
      (phi / 2 * (aM * aM - am * am) + phi / 2 * (aM * bM - am * bm) * (2 * z) + phi / 6 * (bM * bM - bm * bm) * (3 * (z * z))) by field. apply poly_deriv.
  - unfold aM, am, bM, bm. field. lra.
Qed.
Lemma capacity_integral m1 M1 m2 M2 dz dphi w : 0 < dz → 0 <= m1 < M1 → 0 <= m2 < M2 →
  ∃ F : R → R, (∀ z, derivable_pt_lim F z (checked_dphi dphi / 2 * (line (- dz) M1 dz M2 z * line (- dz) M1 dz M2 z - line (- dz) m1 dz m2 z * line (- dz) m1 dz m2 z))) ∧
  cone_capacity (mk_cone m1 M1 m2 M2 dz dphi w) = F dz - F (- dz).
Proof.
  intros Hz H1 H2. destruct (frustum_integral m1 M1 m2 M2 (- dz) dz (checked_dphi dphi) ltac:(lra)) as (F & HF & E). exists F. split; [done|].
  rewrite E. unfold cone_capacity, mk_cone. cbn [k_dz k_dphi k_rmin1 k_rmin2 k_rmax1 k_rmax2].
  destruct (rltb_spec m1 0); [lra|]. destruct (rltb_spec m2 0); [lra|]. destruct (reqb_spec m1 M1); [lra|]. destruct (reqb_spec m2 M2); [lra|]. field.
Qed.
Lemma section_capacity rext dphi w a b : pl_z a < pl_z b → 0 <= pl_rmin a < pl_rmax a → 0 <= pl_rmin b < pl_rmax b →
  cone_capacity (sec_solid (section_of rext dphi w (a, b))) = stacked_volume (checked_dphi dphi) [a; b].
Proof.
  intros Hz Ha Hb. cbn [section_of sec_solid stacked_volume]. unfold cone_capacity, mk_cone. cbn [k_dz k_dphi k_rmin1 k_rmin2 k_rmax1 k_rmax2].
  destruct (rltb_spec (pl_rmin a) 0); [lra|]. destruct (rltb_spec (pl_rmin b) 0); [lra|].
  destruct (reqb_spec (pl_rmin a) (pl_rmax a)); [lra|]. destruct (reqb_spec (pl_rmin b) (pl_rmax b)); [lra|]. field.
Qed.
Lemma capacity_volume inf w dphi pls pc : stacked kTolerance (oriented pls) → radii_ok (oriented pls) → construct inf w dphi pls = Some pc →
  capacity pc = stacked_volume (checked_dphi dphi) (oriented pls).
Proof.
  intros Hs Hr Hc. pose proof kTolerance_pos as Ht. destruct (construct_built kTolerance inf w dphi pls pc ltac:(lra) Hs Hc) as (prev & rest & E & Hb).
  destruct (b_secs _ _ _ _ _ _ Hb) as [rext Es]. unfold capacity. rewrite Es. rewrite E in *. clear E Es Hb Hc.
  revert prev Hs Hr. induction rest as [|c rest IH]; intros prev Hs Hr; [done|].
  assert (Hp : 0 <= pl_rmin prev < pl_rmax prev) by (apply Hr, elem_of_list_here).
  assert (Hq : 0 <= pl_rmin c < pl_rmax c) by (apply Hr, elem_of_list_further, elem_of_list_here).
  assert (IH' := IH c (stacked_tail _ _ _ Hs) (λ a Ha, Hr a (elem_of_list_further _ _ _ Ha))).
  change (stacked_volume (checked_dphi dphi) (prev :: c :: rest)) with
    ((pl_z c - pl_z prev) / 2 * checked_dphi dphi / 3 * (pl_rmax prev * pl_rmax prev + pl_rmax c * pl_rmax c + pl_rmax prev * pl_rmax c - pl_rmin prev * pl_rmin prev - pl_rmin c * pl_rmin c - pl_rmin prev * pl_rmin c)
    + stacked_volume (checked_dphi dphi) (c :: rest)). rewrite <- IH'.
  cbn [frusta]. destruct (rltb_spec (pl_z prev) (pl_z c)) as [Hlt|Hge].
  - rewrite fmap_cons. cbn [foldl]. rewrite (foldl_add (λ sec, cone_capacity (sec_solid sec)) (0 + _)). rewrite section_capacity by done. cbn [stacked_volume]. ring.
  - destruct (Hs prev c (adjacent_head _ _ _)) as [E|E]; [|lra]. rewrite E. field.
Qed.
