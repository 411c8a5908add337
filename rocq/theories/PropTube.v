(** C85: tubes: points, classes and safeties. *)
From Coq Require Import Reals Lra Lia Bool ZArith Psatz.
From stdpp Require Import base list option numbers tactics.
From Verif Require Import Real3 AABBModel BoxModel BoxProofs PlanesModel PlanesProofs ConeModel ConeSpec ConeProofs WedgeModel WedgeSpec WedgeProofs WedgeProofs2 TubeModel TubeSpec TubeProofs TubeProofs2 TubeProofs3.
Import stdpp.list.
Local Open Scope R_scope.

(** Contains, for every type that fits, is the solid; the inner surface is not part of it. *)
Theorem C85_contains k m M Z s d p : 0 <= m < M → 0 < Z → 0 < d <= 2 * PI → tube_fits k m d →
  tube_contains k (tube_struct m M Z s d) p = true ↔ tube_solid m M Z s d p.
Proof. intros. rewrite tube_struct_eq by tauto. by apply contains_solid. Qed.
Print Assumptions C85_contains.
(** A negative inner radius is taken for zero. *)
Theorem C85_contains_negative k m M Z s d p : m <= 0 < M → 0 < Z → 0 < d <= 2 * PI → tube_fits k 0 d →
  tube_contains k (tube_struct m M Z s d) p = true ↔ tube_solid 0 M Z s d p.
Proof. intros. rewrite tube_struct_neg by tauto. apply contains_solid; try done. lra. Qed.
Print Assumptions C85_contains_negative.
Example contains_quarter : tube_contains UniversalTube (tube_struct 1 3 2 0 (PI / 2)) (V3 1 1 1) = true ∧ tube_contains UniversalTube (tube_struct 1 3 2 0 (PI / 2)) (V3 (-2) 1 1) = false.
Proof.
  pose proof PI_RGT_0. assert (S : ∀ x y, sector 0 (PI / 2) x y ↔ 0 <= y ∧ 0 <= x).
  { intros x y. rewrite by_sides' by lra. unfold side. rewrite Rplus_0_l, cos_0, sin_0, cos_PI2, sin_PI2. split; [intros [A _]; destruct (A ltac:(lra)); lra|intros []; split; intros; lra]. }
  split.
  - apply C85_contains; [lra|lra|lra|done|]. unfold tube_solid. rewrite S. cbn [vx vy vz]. rewrite Rabs_pos_eq by lra. unfold rho. cbn [vx vy].
    assert (1 < R_sqrt.sqrt (1 * 1 + 1 * 1)) by (rewrite <- sqrt_1 at 1; apply sqrt_lt_1; lra). assert (R_sqrt.sqrt (1 * 1 + 1 * 1) <= 3) by (rewrite <- (sqrt_square 3) by lra; apply sqrt_le_1; lra). repeat split; lra.
  - apply not_true_is_false. intros K. apply C85_contains in K; [|lra|lra|lra|done]. destruct K as (_ & _ & _ & K). specialize (K ltac:(lra)). rewrite S in K. cbn [vx vy] in K. lra.
Qed.
(** Inside: what the classes promise and from where they are given. *)
Theorem C85_inside k m M Z s d p : 0 <= m < M → 0 < Z → 0 < d <= 2 * PI → tube_fits k m d → 2 * kTolerance <= M → m = 0 ∨ 2 * kTolerance <= m →
  let off := d < 2 * PI → sector s d (vx p) (vy p) ∧ ¬ near_line kTolerance s (vx p) (vy p) ∧ ¬ near_line kTolerance (s + d) (vx p) (vy p) in
  let i := tube_inside k (tube_struct m M Z s d) p in
  (i = kInside → Rabs (vz p) < Z - kHalfTolerance ∧ rho p < M - kTolerance ∧ (0 < m → m + kHalfTolerance < rho p) ∧ off) ∧
  (Rabs (vz p) < Z - kHalfTolerance → rho p < M - 2 * kTolerance → (0 < m → m + kTolerance < rho p) → off → i = kInside) ∧
  (i = kOutside → ¬ tube_closed m M Z s d p) ∧
  (Z + kHalfTolerance < Rabs (vz p) ∨ M + kTolerance < rho p ∨ (0 < m ∧ rho p <= m - 2 * kTolerance) ∨
     (d < 2 * PI ∧ ¬ sector s d (vx p) (vy p) ∧ ¬ near_line kTolerance s (vx p) (vy p) ∧ ¬ near_line kTolerance (s + d) (vx p) (vy p)) → i = kOutside).
Proof.
  intros Hm HZ Hd Hk HM Hm2 off i. unfold i. rewrite tube_struct_eq by tauto. rewrite inside_in, inside_out by done. pose proof kTolerance_pos as KT. pose proof (rho_nonneg p) as R0.
  assert (HH : 2 * kHalfTolerance = kTolerance) by (unfold kHalfTolerance; field). assert (EM : Rabs (M * (M - 2 * kTolerance)) = M * (M - 2 * kTolerance)) by (apply Rabs_pos_eq, Rmult_le_pos; lra). rewrite EM.
  assert (Em : 0 < m → Rabs (m * (m - 2 * kTolerance)) = m * (m - 2 * kTolerance)) by (intros; apply Rabs_pos_eq, Rmult_le_pos; lra).
  assert (OF : (d < 2 * PI → sector s d (vx p) (vy p) ∧ ¬ on_side d s (vx p) (vy p)) ↔ off) by (unfold off, on_side; clear; tauto).
  split; [|split; [|split]].
  - intros (A & B & C & D). split; [done|]. split; [apply sqr_lt; [done|lra|]; nra|]. split; [|by apply OF]. intros M0. specialize (C M0). apply sqr_lt; [lra|done|]. destruct Hm2; [lra|]. nra.
  - intros A B C D. split; [done|]. split; [assert (rho p * rho p < (M - 2 * kTolerance) * (M - 2 * kTolerance)) by (apply sqr_lt; lra); nra|]. split; [|by apply OF]. intros M0. specialize (C M0). assert ((m + kTolerance) * (m + kTolerance) < rho p * rho p) by (apply sqr_lt; lra). nra.
  - intros X (Cz & Cr & Cs). pose proof kHalfTolerance_pos. destruct X as [X|[X|[(M0 & X)|(X & Y & _)]]]; [lra| | |by apply Y, Cs].
    + assert (rho p * rho p <= M * M) by (apply sqr_le; lra). nra.
    + rewrite Em in X by done. assert (m * m <= rho p * rho p) by (apply sqr_le; lra). nra.
  - intros [X|[X|[(M0 & X)|(X & Y & W1 & W2)]]]; [by left|right; left|right; right; left|right; right; right].
    + assert ((M + kTolerance) * (M + kTolerance) < rho p * rho p) by (apply sqr_lt; lra). nra.
    + split; [done|]. rewrite Em by done. assert (rho p * rho p <= (m - 2 * kTolerance) * (m - 2 * kTolerance)) by (apply sqr_le; lra). destruct Hm2; [lra|]. nra.
    + split; [done|]. split; [done|]. intros [K|K]; contradiction.
Qed.
Print Assumptions C85_inside.
Example inside_pipe : tube_inside UniversalTube (tube_struct 1 3 2 0 (2 * PI)) (V3 2 0 0) = kInside ∧ tube_inside UniversalTube (tube_struct 1 3 2 0 (2 * PI)) (V3 5 0 0) = kOutside.
Proof.
  pose proof PI_RGT_0. assert (K : kTolerance <= 1 / 1000) by (unfold kTolerance; lra). pose proof kTolerance_pos. assert (HH : 2 * kHalfTolerance = kTolerance) by (unfold kHalfTolerance; field).
  assert (R : ∀ a, 0 <= a → rho (V3 a 0 0) = a) by (intros a Ha; unfold rho; cbn [vx vy]; replace (a * a + 0 * 0) with (a * a) by ring; by apply sqrt_square).
  split.
  - destruct (C85_inside UniversalTube 1 3 2 0 (2 * PI) (V3 2 0 0)) as (_ & A & _ & _); [lra|lra|lra|done|lra|lra|]. apply A; cbn [vz]; rewrite ?R, ?Rabs_R0; try lra; intros; lra.
  - destruct (C85_inside UniversalTube 1 3 2 0 (2 * PI) (V3 5 0 0)) as (_ & _ & _ & A); [lra|lra|lra|done|lra|lra|]. apply A. right; left. rewrite R; lra.
Qed.
(** An inner radius below two tolerances: the lower bound turns negative, its absolute value is used, and points of the tube just
    outside of the hole answer kOutside. *)
Theorem C85_inside_hole_refuted : ¬ ∀ k m M Z s d p, 0 <= m < M → 0 < Z → 0 < d <= 2 * PI → tube_fits k m d → 2 * kTolerance <= M →
  (tube_inside k (tube_struct m M Z s d) p = kOutside → ¬ tube_closed m M Z s d p).
Proof.
  intros H. pose proof PI_RGT_0. pose proof kTolerance_pos as KT. assert (K : kTolerance <= 1 / 1000) by (unfold kTolerance; lra).
  specialize (H UniversalTube (kTolerance / 2) 3 2 0 (2 * PI) (V3 (kTolerance * (3 / 5)) 0 0) ltac:(lra) ltac:(lra) ltac:(lra) I ltac:(lra)).
  assert (ER : rho (V3 (kTolerance * (3 / 5)) 0 0) = kTolerance * (3 / 5)). { unfold rho. cbn [vx vy]. replace (kTolerance * (3 / 5) * (kTolerance * (3 / 5)) + 0 * 0) with (kTolerance * (3 / 5) * (kTolerance * (3 / 5))) by ring. apply sqrt_square. lra. }
  apply H.
  - rewrite tube_struct_eq by lra. apply inside_out; [lra|lra|lra|done|]. right; right; left. rewrite ER. split; [lra|]. rewrite Rabs_left by nra. nra.
  - split; [cbn [vz]; rewrite Rabs_R0; lra|]. split; [rewrite ER; lra|intros; lra].
Qed.
Print Assumptions C85_inside_hole_refuted.
(** Safeties: never more than the distance, never of the wrong sign. *)
Theorem C85_safety_to_in inf k m M Z s d p : 0 <= m < M → 0 < Z → 0 < d <= 2 * PI → tube_fits k m d → let v := tube_safety_in inf k (tube_struct m M Z s d) p in
  (∀ q, tube_closed m M Z s d q → v <= vdist p q) ∧ (tube_closed m M Z s d p → v <= 0) ∧
  (Rabs (vz p) - Z <= v ∧ rho p - M <= v ∧ (0 < m → m - rho p <= v)).
Proof.
  intros Hm HZ Hd Hk. rewrite tube_struct_eq by tauto. split; [intros; by apply tube_safety_in_le|]. split; [by apply tube_safety_in_sign|].
  unfold tube_safety_in. cbv zeta. rewrite phi_eq, hole_eq, sqrt_rho by done. cbn [tb tb_z tb_rmax tb_rmin]. rewrite max_of.
  set (a := Rmax (Rabs (vz p) - Z) (rho p - M)). assert (A1 : Rabs (vz p) - Z <= a) by apply Rmax_l. assert (A2 : rho p - M <= a) by apply Rmax_r.
  set (b := if rgtb m 0 && rgtb (m - rho p) a then m - rho p else a). assert (B1 : a <= b ∧ (0 < m → m - rho p <= b)). { unfold b. destruct (rgtb_spec m 0), (rgtb_spec (m - rho p) a); cbn [andb]; lra. }
  destruct (rltb d (2 * PI)); cbn [negb]; [|lra]. destruct (in_sector _ _ _ _ _); [lra|]. destruct (rltb _ inf); cbn [andb]; [|lra]. destruct (rgtb_spec (phi_safety inf k (tb m M Z s d) p) b); lra.
Qed.
Print Assumptions C85_safety_to_in.
(** Exactly, in front of the sides: the smaller of the distances to the sides the point is outside of (tolerantly), and for
    wide sectors not more than the distance to the axis. *)
Lemma phi_val inf k m M Z s d p : 0 <= m < M → 0 < Z → 0 < d < 2 * PI → tube_fits k m d → rho p < inf →
  let x := - side s (vx p) (vy p) in let y := side (s + d) (vx p) (vy p) in
  phi_safety inf k (tb m M Z s d) p =
    if rltb PI d then Rmin (Rmin (rho p) (if rgtb x (- kHalfTolerance) then x else rho p)) (if rgtb y (- kHalfTolerance) then y else rho p)
    else match sector_type k with kOnePi => if rgtb (Rabs x) kHalfTolerance then Rabs x else inf
         | _ => if rgtb x (- kHalfTolerance) then (if rgtb y (- kHalfTolerance) then Rmin x y else x) else if rgtb y (- kHalfTolerance) then y else inf end.
Proof.
  intros Hm HZ Hd Hk HI x y. pose proof PI_RGT_0. assert (A : angle_fits (sector_type k) d) by (destruct k; cbn in *; tauto).
  assert (X : ∀ phi, - rho p <= side phi (vx p) (vy p) <= rho p).
  { intros phi. pose proof (side_lipschitz phi (vx p) (vy p) 0 0) as L1. pose proof (side_lipschitz' phi (vx p) (vy p) 0 0) as L2. assert (E : dist2 (vx p) (vy p) 0 0 = rho p) by (unfold dist2, rho; f_equal; ring). assert (E0 : side phi 0 0 = 0) by (unfold side; ring). rewrite E, E0 in *. lra. }
  pose proof (X s) as X1. pose proof (X (s + d)) as X2. unfold phi_safety. cbv zeta. rewrite sqrt_rho. change (tb_dphi (tb m M Z s d)) with d. change (tb_a1x (tb m M Z s d)) with (cos s). change (tb_a1y (tb m M Z s d)) with (sin s). change (tb_a2x (tb m M Z s d)) with (cos (s + d)). change (tb_a2y (tb m M Z s d)) with (sin (s + d)).
  assert (E1 : perp_dist (vx p) (vy p) (cos s) (sin s) = x) by (unfold perp_dist, x, side; ring). assert (E2 : perp_dist (vx p) (vy p) (cos (s + d)) (sin (s + d)) * -1 = y) by (unfold perp_dist, y, side; ring). rewrite E1, E2.
  assert (XX : - rho p <= x <= rho p) by (unfold x; lra). assert (YY : - rho p <= y <= rho p) by done. clear X1 X2 E1 E2. clearbody x y.
  assert (BIG : match sector_type k with kUnknownAngle => rgtb d PI | kBiggerThanPi => true | _ => false end = rltb PI d).
  { destruct (sector_type k); cbn in A; destruct (rltb_spec PI d); try destruct (rgtb_spec d PI); try done; lra. }
  rewrite BIG. destruct (rltb_spec PI d) as [L|L].
  - assert (NP : sector_type k ≠ kOnePi) by (intros E; rewrite E in A; cbn in A; lra). rewrite one_pi_not by done.
    destruct (rgtb_spec x (- kHalfTolerance)), (rgtb_spec y (- kHalfTolerance)); cbn [andb]; destruct (rltb_spec x (rho p)); unfold Rmin; repeat destruct (Rle_dec _ _); repeat match goal with |- context [rltb ?a ?b] => destruct (rltb_spec a b) end; lra.
  - destruct (one_pi (sector_type k)) as [E|E]; [rewrite E; done|]. rewrite !one_pi_not by done.
    destruct (rgtb_spec x (- kHalfTolerance)), (rgtb_spec y (- kHalfTolerance)); cbn [andb]; destruct (rltb_spec x inf); unfold Rmin; repeat destruct (Rle_dec _ _); repeat match goal with |- context [rltb ?a ?b] => destruct (rltb_spec a b) end; lra.
Qed.
Definition plain (m M Z : R) (p : v3) : R := let a := Rmax (Rabs (vz p) - Z) (rho p - M) in if rgtb m 0 then Rmax a (m - rho p) else a.
Theorem C85_safety_to_in_exact inf k m M Z s d p : 0 <= m < M → 0 < Z → 0 < d <= 2 * PI → tube_fits k m d → rho p < inf →
  let v := tube_safety_in inf k (tube_struct m M Z s d) p in let b := plain m M Z p in
  let x := - side s (vx p) (vy p) in let y := side (s + d) (vx p) (vy p) in
  (d = 2 * PI ∨ x <= - kHalfTolerance ∧ y <= - kHalfTolerance → v = b) ∧
  (d <= PI → kHalfTolerance < x → y <= - kHalfTolerance → v = Rmax b x) ∧
  (d <= PI → kHalfTolerance < y → x <= - kHalfTolerance → v = Rmax b y) ∧
  (d <= PI → - kHalfTolerance < x → - kHalfTolerance < y → kHalfTolerance < Rmax x y → v = Rmax b (Rmin x y)) ∧
  (PI < d < 2 * PI → - kHalfTolerance < x → - kHalfTolerance < y → v = Rmax b (Rmin (rho p) (Rmin x y))).
Proof.
  intros Hm HZ Hd Hk HI v b x y. pose proof PI_RGT_0. pose proof kHalfTolerance_pos as KH. unfold v. rewrite tube_struct_eq by tauto. unfold tube_safety_in. cbv zeta. rewrite phi_eq, hole_eq, sqrt_rho by done. cbn [tb tb_z tb_rmax tb_rmin]. rewrite max_of. fold (tb m M Z s d).
  set (a := Rmax (Rabs (vz p) - Z) (rho p - M)). assert (EB : (if rgtb m 0 && rgtb (m - rho p) a then m - rho p else a) = b). { unfold b, plain. cbv zeta. fold a. destruct (rgtb m 0); cbn [andb]; by rewrite ?max_of. } rewrite EB. clear EB. clearbody b. clear a.
  destruct (rltb_spec d (2 * PI)) as [P|P]; cbn [negb]; [|split; [done|]; split; [intros; exfalso; lra|]; split; [intros; exfalso; lra|]; split; intros; exfalso; lra].
  pose proof (phi_val inf k m M Z s d p Hm HZ ltac:(lra) Hk HI) as V. cbv zeta in V. fold x y in V. pose proof (in_sector_spec k m M Z s d Hm HZ Hd Hk false (vx p) (vy p) P) as IS. cbv zeta in IS.
  assert (ISx : in_sector k (tb m M Z s d) false (vx p) (vy p) = true ↔ (d <= PI → x <= - kHalfTolerance ∧ y <= - kHalfTolerance) ∧ (PI < d → x <= - kHalfTolerance ∨ y <= - kHalfTolerance)).
  { rewrite IS. unfold x, y. split; intros [A B]; split; intros W; [specialize (A W)|specialize (B W)|specialize (A W)|specialize (B W)]; lra. }
  clear IS. assert (X : - rho p <= x <= rho p ∧ - rho p <= y <= rho p).
  { assert (X : ∀ phi, - rho p <= side phi (vx p) (vy p) <= rho p). { intros phi. pose proof (side_lipschitz phi (vx p) (vy p) 0 0) as L1. pose proof (side_lipschitz' phi (vx p) (vy p) 0 0) as L2. assert (E : dist2 (vx p) (vy p) 0 0 = rho p) by (unfold dist2, rho; f_equal; ring). assert (E0 : side phi 0 0 = 0) by (unfold side; ring). rewrite E, E0 in *. lra. }
    split; [unfold x; pose proof (X s); lra|apply X]. }
  assert (PX : sector_type k = kOnePi → d = PI ∧ y = x). { intros E. pose proof (fits_pi k m d Hk E) as ED. split; [done|]. unfold x, y. rewrite ED. apply side_flip. }
  clearbody x y. destruct X as [X1 X2]. set (ph := phi_safety inf k (tb m M Z s d) p) in *. clearbody ph. set (is := in_sector k (tb m M Z s d) false (vx p) (vy p)) in *. clearbody is.
  assert (GO : ∀ c, is = false → ph = c → c < inf → (if is then b else if rltb ph inf && rgtb ph b then ph else b) = Rmax b c).
  { intros c -> -> L. destruct (rltb_spec c inf); [|lra]. cbn [andb]. apply max_of. }
  split; [|split; [|split; [|split]]].
  - intros [|[A B]]; [exfalso; lra|]. assert (is = true) as ->; [|done]. apply ISx. split; intros; [lra|by left].
  - intros L A B. apply GO; [| |lra].
    + apply not_true_is_false. intros W. apply ISx in W as [W _]. specialize (W L). lra.
    + rewrite V. destruct (rltb_spec PI d); [lra|]. destruct (one_pi (sector_type k)) as [E|E]; [destruct (PX E); lra|]. rewrite one_pi_not by done. destruct (rgtb_spec x (- kHalfTolerance)); [|lra]. destruct (rgtb_spec y (- kHalfTolerance)); [lra|done].
  - intros L A B. apply GO; [| |lra].
    + apply not_true_is_false. intros W. apply ISx in W as [W _]. specialize (W L). lra.
    + rewrite V. destruct (rltb_spec PI d); [lra|]. destruct (one_pi (sector_type k)) as [E|E]; [destruct (PX E); lra|]. rewrite one_pi_not by done. destruct (rgtb_spec x (- kHalfTolerance)); [lra|]. destruct (rgtb_spec y (- kHalfTolerance)); [done|lra].
  - intros L A B G. apply GO; [| |pose proof (Rmin_l x y); lra].
    + apply not_true_is_false. intros W. apply ISx in W as [W _]. specialize (W L). lra.
    + rewrite V. destruct (rltb_spec PI d); [lra|]. destruct (one_pi (sector_type k)) as [E|E].
      * destruct (PX E) as [_ ->]. rewrite E. rewrite Rmax_left in G by lra. rewrite Rmin_left, Rabs_pos_eq by lra. destruct (rgtb_spec x kHalfTolerance); [done|lra].
      * rewrite one_pi_not by done. destruct (rgtb_spec x (- kHalfTolerance)); [|lra]. destruct (rgtb_spec y (- kHalfTolerance)); [done|lra].
  - intros L A B. apply GO; [| |pose proof (Rmin_l (rho p) (Rmin x y)); lra].
    + apply not_true_is_false. intros W. apply ISx in W as [_ W]. specialize (W ltac:(lra)). lra.
    + rewrite V. destruct (rltb_spec PI d); [|lra]. destruct (rgtb_spec x (- kHalfTolerance)); [|lra]. destruct (rgtb_spec y (- kHalfTolerance)); [|lra]. unfold Rmin. repeat destruct (Rle_dec _ _); lra.
Qed.
Print Assumptions C85_safety_to_in_exact.
Theorem C85_safety_to_out k m M Z s d p : 0 <= m < M → 0 < Z → 0 < d <= 2 * PI → tube_fits k m d → let v := tube_safety_out k (tube_struct m M Z s d) p in
  (∀ q, ¬ tube_solid m M Z s d q → v <= vdist p q) ∧ (tube_closed m M Z s d p → 0 <= v) ∧
  v = (let a := Rmin (Z - Rabs (vz p)) (M - rho p) in let b := if rgtb m 0 then Rmin a (rho p - m) else a in
       let x := side s (vx p) (vy p) in let y := - side (s + d) (vx p) (vy p) in
       if rltb d PI then Rmin b (Rmin x y) else if rltb d (2 * PI) then Rmin b (Rmax x y) else b).
Proof.
  intros Hm HZ Hd Hk. pose proof PI_RGT_0. rewrite tube_struct_eq by tauto. split; [intros; by apply tube_safety_out_le|]. split; [by apply tube_safety_out_sign|].
  rewrite tube_safety_out_eq by done. cbv zeta. unfold wedge_safety_out. cbv zeta. rewrite n1_side, n2_side. cbn [mk_wedge wd_dphi].
  destruct (rltb_spec d PI), (rltb_spec d (2 * PI)); try done; exfalso; lra.
Qed.
Print Assumptions C85_safety_to_out.
Example safeties_pipe : tube_safety_in 1000 UniversalTube (tube_struct 1 3 2 0 (2 * PI)) (V3 5 0 0) = 2 ∧ tube_safety_out UniversalTube (tube_struct 1 3 2 0 (2 * PI)) (V3 2 0 0) = 1.
Proof.
  pose proof PI_RGT_0. assert (R : ∀ a, 0 <= a → rho (V3 a 0 0) = a) by (intros a Ha; unfold rho; cbn [vx vy]; replace (a * a + 0 * 0) with (a * a) by ring; by apply sqrt_square).
  split.
  - destruct (C85_safety_to_in_exact 1000 UniversalTube 1 3 2 0 (2 * PI) (V3 5 0 0)) as (A & _); [lra|lra|lra|done|rewrite R; lra|]. rewrite A by (by left). unfold plain. cbv zeta. rewrite R by lra. cbn [vz]. rewrite Rabs_R0. destruct (rgtb_spec 1 0); [|lra]. rewrite Rmax_left; [rewrite Rmax_right; lra|rewrite Rmax_right; lra].
  - destruct (C85_safety_to_out UniversalTube 1 3 2 0 (2 * PI) (V3 2 0 0)) as (_ & _ & A); [lra|lra|lra|done|]. rewrite A. cbv zeta. rewrite R by lra. cbn [vz]. rewrite Rabs_R0. destruct (rltb_spec (2 * PI) PI); [lra|]. destruct (rltb_spec (2 * PI) (2 * PI)); [lra|]. destruct (rgtb_spec 1 0); [|lra]. rewrite Rmin_right; [lra|]. rewrite Rmin_right; lra.
Qed.
