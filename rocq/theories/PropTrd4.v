(** C84: setters, makers and normals of Trds. *)
From Coq Require Import Reals Lra Lia Bool ZArith Psatz.
From stdpp Require Import base list option numbers tactics.
From Verif Require Import Real3 AABBModel AABBSpec BoxSpec BoxModel BoxProofs PlanesModel PlanesSpec PlanesProofs TrapSpec TrdModel TrdSpec TrdProofs TrdProofs2.
From Verif Require PropTrd PropTrd3.
Import stdpp.list.
Local Open Scope R_scope.

(** The lengths that are in force after a history of setters. *)
Definition lengths := (R * R * R * R * R)%type.
Definition set_length (l : lengths) (o : trd_op) : lengths :=
  let '(x1, x2, y1, y2, z) := l in
  match o with SetAll a b c d e => (a, b, c, d, e) | SetX1 a => (a, x2, y1, y2, z) | SetX2 a => (x1, a, y1, y2, z) | SetY1 a => (x1, x2, a, y2, z) | SetY2 a => (x1, x2, y1, a, z) | SetZ a => (x1, x2, y1, y2, a) end.
(** After any history of setters every member is that of a new solid with the lengths in force, but the bounding box stays
    that of the first lengths. *)
Theorem C84_setters x1 x2 y1 y2 z ops : let u := foldl trd_do (mk_trd x1 x2 y1 y2 z) ops in let '(a, b, c, d, e) := foldl set_length (x1, x2, y1, y2, z) ops in
  ut_trd u = trd_struct a b c d e ∧ ut_bbox u = trd_extent (trd_struct x1 x2 y1 y2 z).
Proof.
  cbv zeta. assert (K : ∀ u l, (let '(a, b, c, d, e) := l in ut_trd u = trd_struct a b c d e) → let '(a, b, c, d, e) := foldl set_length l ops in ut_trd (foldl trd_do u ops) = trd_struct a b c d e ∧ ut_bbox (foldl trd_do u ops) = ut_bbox u).
  { induction ops as [|o ops IH]; intros u [[[[a b] c] d] e] H; [done|]. cbn [foldl]. specialize (IH (trd_do u o) (set_length (a, b, c, d, e) o)). destruct (foldl set_length (set_length (a, b, c, d, e) o) ops) as [[[[a' b'] c'] d'] e'].
    destruct IH as [A B]; [destruct o; cbn [set_length trd_do ut_trd]; rewrite ?H; done|]. split; [done|]. rewrite B. done. }
  specialize (K (mk_trd x1 x2 y1 y2 z) (x1, x2, y1, y2, z) eq_refl). destruct (foldl set_length _ ops) as [[[[a b] c] d] e]. done.
Qed.
Print Assumptions C84_setters.
(** Points outside the bounding box of a solid that was widened. *)
Theorem C84_bbox_refuted : ¬ ∀ x1 x2 y1 y2 z ops p, let u := foldl trd_do (mk_trd x1 x2 y1 y2 z) ops in trd_contains Trd2 (ut_trd u) p = true → vx (fst (ut_bbox u)) <= vx p <= vx (snd (ut_bbox u)).
Proof.
  intros H. specialize (H 1 1 1 1 1 [SetAll 5 5 1 1 1] (V3 4 0 0)). cbv zeta in H. cbn [foldl trd_do ut_trd ut_bbox mk_trd] in H.
  assert (K : trd_contains Trd2 (calculate_cached 5 5 1 1 1) (V3 4 0 0) = true). { apply PropTrd.C84_contains; [lra|done|]. unfold frustum. rewrite !width_same by lra. cbn [vx vy vz]. rewrite Rabs_R0, Rabs_pos_eq by lra. lra. }
  specialize (H K). revert H. cbn. unfold Rmax. destruct (Rle_dec 1 1); lra.
Qed.
Print Assumptions C84_bbox_refuted.
(** A Trd1 given different lengths in y keeps the kernels for one length. *)
Theorem C84_set_y_refuted : ¬ ∀ x1 x2 y1 z ops p, let u := foldl trd_do (mk_trd x1 x2 y1 y1 z) ops in let '(a, b, c, d, e) := foldl set_length (x1, x2, y1, y1, z) ops in
  trd_contains Trd1 (ut_trd u) p = true ↔ frustum a b c d e p.
Proof.
  intros H. specialize (H 1 1 1 1 [SetY2 5] (V3 0 2 (3 / 4))). cbn [foldl trd_do ut_trd set_length mk_trd] in H. destruct H as [_ H].
  assert (F : frustum 1 1 1 5 1 (V3 0 2 (3 / 4))). { unfold frustum, width. cbn [vx vy vz]. rewrite Rabs_R0, !Rabs_pos_eq by lra. lra. }
  specialize (H F). revert H. unfold trd_contains, trd_kernel. cbv zeta. cbn [has_varying_y snd vx vy vz]. unfold plus_tolerant. rewrite (Rabs_pos_eq 2) by lra.
  match goal with |- context [rgtb 2 ?e] => change e with 1; destruct (rgtb_spec 2 1); [|lra] end. rewrite orb_true_r. done.
Qed.
Print Assumptions C84_set_y_refuted.

(** Makers: the solid asked for, but a box without its surface when a box was made. *)
Lemma box_frustum x y z p : 0 < z → (frustum x x y y z p ↔ closed (V3 x y z) p) ∧ (frustum_core x x y y z p ↔ interior (V3 x y z) p).
Proof. intros Hz. unfold frustum, frustum_core. rewrite !width_same by done. unfold closed, interior, in_box, in_interior, centred, vneg. cbn [bmin bmax vx vy vz]. pose proof (abs_le (vx p) x). pose proof (abs_le (vy p) y). pose proof (abs_le (vz p) z). pose proof (abs_lt (vx p) x). pose proof (abs_lt (vy p) y). pose proof (abs_lt (vz p) z). rewrite H, H0, H1, H2, H3, H4. unfold vscale; cbn [vx vy vz]. replace (-1 * x) with (- x) by ring. replace (-1 * y) with (- y) by ring. replace (-1 * z) with (- z) by ring. split; reflexivity. Qed.
Definition is_box (m : made) : bool := match m with MadeBox _ _ _ => true | MadeTrd _ _ => false end.
Lemma box_contains_core x y z p : 0 < z → box_contains (V3 x y z) p = true ↔ frustum_core x x y y z p.
Proof. intros Hz. unfold box_contains. rewrite (proj2 (box_frustum x y z p Hz)), <- outer_interior. apply rltb_true. Qed.
Theorem C84_make generic x1 x2 y1 y2 z p : 0 < z → let m := make_trd generic x1 x2 y1 y2 z in
  (made_contains m p = true ↔ if is_box m then frustum_core x1 x2 y1 y2 z p else frustum x1 x2 y1 y2 z p) ∧
  (is_box m = true ↔ generic = false ∧ x1 = x2 ∧ y1 = y2).
Proof.
  intros Hz m. unfold m, make_trd. destruct generic; [cbn; split; [apply PropTrd.C84_contains; [done|done]|intuition discriminate]|].
  destruct (reqb_spec x1 x2) as [Ex|Ex], (reqb_spec y1 y2) as [Ey|Ey]; cbn [andb is_box made_contains ut_trd mk_trd].
  - subst x2 y2. split; [by apply box_contains_core|done].
  - split; [apply PropTrd.C84_contains; done|intuition (discriminate || contradiction)].
  - subst y2. split; [apply PropTrd.C84_contains; done|intuition (discriminate || contradiction)].
  - split; [apply PropTrd.C84_contains; done|intuition (discriminate || contradiction)].
Qed.
Print Assumptions C84_make.
Theorem C84_make1 generic x1 x2 y1 z p : 0 < z → let m := make_trd1 generic x1 x2 y1 z in
  (made_contains m p = true ↔ if is_box m then frustum_core x1 x2 y1 y1 z p else frustum x1 x2 y1 y1 z p) ∧
  (is_box m = true ↔ generic = false ∧ x1 = x2).
Proof.
  intros Hz m. unfold m, make_trd1. destruct generic; [cbn; split; [apply PropTrd.C84_contains; [done|done]|intuition discriminate]|].
  destruct (reqb_spec x1 x2) as [Ex|Ex]; cbn [andb is_box made_contains ut_trd mk_trd].
  - subst x2. split; [by apply box_contains_core|done].
  - split; [apply PropTrd.C84_contains; done|intuition (discriminate || contradiction)].
Qed.
Print Assumptions C84_make1.
(** Inside of the box that was made and of the Trd it stands for agree from more than a tolerance. *)
Theorem C84_make_inside x y z p : 0 < z → made_inside (make_trd false x x y y z) p ≠ trd_inside UniversalTrd (trd_struct x x y y z) p →
  Rabs (box_outer (V3 x y z) p) <= kTolerance ∧ made_inside (make_trd false x x y y z) p ≠ kSurface ∧ trd_inside UniversalTrd (trd_struct x x y y z) p = kSurface.
Proof.
  intros Hz. unfold make_trd. destruct (reqb_spec x x) as [_|]; [|done]. destruct (reqb_spec y y) as [_|]; [|done]. cbn [andb made_inside].
  destruct (PropTrd.kernel_eq UniversalTrd x x y y z Hz ltac:(done) true p) as [E1 E2]. cbv zeta in E1, E2. specialize (E2 eq_refl). unfold trd_inside. destruct (trd_kernel _ _ true p) as [i o]. cbn [fst snd] in E1, E2. subst i o.
  assert (G : ∀ a, secant ((a - a) / (2 * z)) = 1) by (intros a; replace ((a - a) / (2 * z)) with 0 by (field; lra); apply secant_0).
  assert (SY : PropTrd.slack_y UniversalTrd x x y y z = kTolerance) by (unfold PropTrd.slack_y; rewrite !G; field). rewrite SY.
  assert (EX : hX x x z p = Rabs (vx p) - x) by (unfold hX; rewrite G, width_same by done; field). assert (EY : hY y y z p = Rabs (vy p) - y) by (unfold hY; rewrite G, width_same by done; field). rewrite EX, EY. unfold hZ.
  assert (O : ∀ r, box_outer (V3 x y z) p <= r ↔ Rabs (vx p) - x <= r ∧ Rabs (vy p) - y <= r ∧ Rabs (vz p) - z <= r).
  { intros r. unfold box_outer, vmax, vabs, vsub. cbn [vx vy vz]. split; [intros H|intros (H1 & H2 & H3); repeat apply Rmax_lub; done]. revert H. unfold Rmax. repeat destruct (Rle_dec _ _); lra. }
  unfold box_inside. set (D := box_outer (V3 x y z) p) in *. pose proof kHalfTolerance_pos as Hh. assert (HT : kTolerance = 2 * kHalfTolerance) by (unfold kHalfTolerance; lra).
  pose proof (proj1 (O D) (Rle_refl _)) as (O1 & O2 & O3). assert (OU : ∀ r, Rabs (vx p) - x <= r → Rabs (vy p) - y <= r → Rabs (vz p) - z <= r → D <= r) by (intros; by apply O).
  set (a := Rabs (vx p) - x) in *. set (b := Rabs (vy p) - y) in *. set (c := Rabs (vz p) - z) in *.
  assert (M : D = a ∨ D = b ∨ D = c). { destruct (Req_dec D a); [auto|]. destruct (Req_dec D b); [auto|]. right. right. destruct (Rle_dec D c); [lra|]. exfalso. assert (D <= Rmax a (Rmax b c)) by (apply OU; [apply Rmax_l|eapply Rle_trans; [apply Rmax_l|apply Rmax_r]|eapply Rle_trans; [apply Rmax_r|apply Rmax_r]]). revert H1. unfold Rmax. repeat destruct (Rle_dec _ _); lra. }
  cbv zeta. destruct (rltb_spec (Rabs D) kHalfTolerance) as [L|L].
  - apply abs_lt in L. destruct (rgtb_spec c kHalfTolerance); [lra|]. destruct (rgtb_spec a kTolerance); [lra|]. destruct (rgtb_spec b kTolerance); [lra|]. cbn [orb].
    destruct (rltb_spec c (- kHalfTolerance)), (rltb_spec a (- kTolerance)), (rltb_spec b (- kTolerance)); cbn [andb]; intros N; try done. exfalso. destruct M as [M|[M|M]]; lra.
  - assert (L' : D <= - kHalfTolerance ∨ kHalfTolerance <= D). { destruct (Rle_dec kHalfTolerance D); [auto|]. destruct (Rle_dec D (- kHalfTolerance)); [auto|]. exfalso. apply L, abs_lt. lra. }
    destruct (rltb_spec D 0) as [N|N].
    + destruct (rgtb_spec c kHalfTolerance); [lra|]. destruct (rgtb_spec a kTolerance); [lra|]. destruct (rgtb_spec b kTolerance); [lra|]. cbn [orb].
      destruct (rltb_spec c (- kHalfTolerance)), (rltb_spec a (- kTolerance)), (rltb_spec b (- kTolerance)); cbn [andb]; intros W; try done; (split; [apply abs_le|split; done]); lra.
    + destruct (rgtb_spec c kHalfTolerance); [done|]. destruct (rgtb_spec a kTolerance); [done|]. destruct (rgtb_spec b kTolerance); [done|]. cbn [orb]. intros W. split; [apply abs_le; destruct M as [M|[M|M]]; lra|].
      split; [done|]. destruct (rltb_spec c (- kHalfTolerance)), (rltb_spec a (- kTolerance)), (rltb_spec b (- kTolerance)); cbn [andb]; try done. exfalso. destruct M as [M|[M|M]]; lra.
Qed.
Print Assumptions C84_make_inside.
(** DistanceToIn of whatever was made is the one of a Trd of the asked shape, under a type that fits it (the theorem
    C84_to_in speaks of those). *)
Theorem C84_make_to_in inf generic x1 x2 y1 y2 z p d : ∃ k, (k = Trd1 → y1 = y2) ∧ (generic = true → k = UniversalTrd) ∧
  made_to_in inf (make_trd generic x1 x2 y1 y2 z) p d = trd_to_in inf k (trd_struct x1 x2 y1 y2 z) p d.
Proof.
  unfold make_trd. destruct generic; [by exists UniversalTrd|]. destruct (reqb_spec x1 x2) as [Ex|Ex], (reqb_spec y1 y2) as [Ey|Ey]; cbn [andb made_to_in ut_trd mk_trd]; subst; [by exists Trd2|by exists Trd2|by exists Trd1|by exists Trd2].
Qed.
Print Assumptions C84_make_to_in.
Theorem C84_make1_to_in inf generic x1 x2 y1 z p d : ∃ k, (generic = true → k = UniversalTrd) ∧ (generic = false → k = Trd1) ∧
  made_to_in inf (make_trd1 generic x1 x2 y1 z) p d = trd_to_in inf k (trd_struct x1 x2 y1 y1 z) p d.
Proof.
  unfold make_trd1. destruct generic; [by exists UniversalTrd|]. destruct (reqb_spec x1 x2) as [Ex|Ex]; cbn [made_to_in ut_trd mk_trd]; subst; by exists Trd1.
Qed.
Print Assumptions C84_make1_to_in.
(** From (0, 0, 5) down, a made box of half lengths 3, 2, 1 is met after 4. *)
Example make_to_in_box : ∃ k, made_to_in 1000 (make_trd false 3 3 2 2 1) (V3 0 0 5) (V3 0 0 (-1)) = trd_to_in 1000 k (trd_struct 3 3 2 2 1) (V3 0 0 5) (V3 0 0 (-1)).
Proof. destruct (C84_make_to_in 1000 false 3 3 2 2 1 (V3 0 0 5) (V3 0 0 (-1))) as (k & _ & _ & E). by exists k. Qed.

(** Normal. *)
Section Normal.
Variables (x1 x2 y1 y2 dz : R).
Hypothesis Hz : 0 < dz.
Let t := trd_struct x1 x2 y1 y2 dz.
Let gx := (x2 - x1) / (2 * dz).
Let gy := (y2 - y1) / (2 * dz).
Let F := ramps x1 x2 y1 y2 dz.
Lemma norm_eq d : 1 / R_sqrt.sqrt (4 * dz * dz + d * d) = / (2 * dz) / secant (d / (2 * dz)).
Proof using Hz. rewrite PropTrd3.slant by done. pose proof (secant_pos (d / (2 * dz))). field. lra. Qed.
Lemma dist_eq s a b c z : s = 2 * dz ∨ s = -2 * dz → (s * c - (b - a) * z - dz * (a + b)) * (/ (2 * dz) / secant ((b - a) / (2 * dz))) = (s / (2 * dz) * c - width dz a b z) / secant ((b - a) / (2 * dz)).
Proof using Hz. intros _. pose proof (secant_pos ((b - a) / (2 * dz))). unfold width. field. lra. Qed.
Lemma tally a h m : 0 <= m → 0 <= h → a <= h → rleb (a - m) h = true.
Proof using. intros. apply rleb_true. lra. Qed.
Lemma no_tally a h m : m <= h → 2 * h < a → rleb (a - m) h = false.
Proof using. intros. destruct (rleb_spec (a - m) h); [lra|done]. Qed.
Lemma vec_x s u : u = s * (2 * dz) → vscale (/ (2 * dz) / secant gx) (V3 u 0 (- (x2 - x1))) = vscale (1 / secant gx) (V3 s 0 (- gx)).
Proof using Hz. intros ->. pose proof (secant_pos gx). assert (E : x2 - x1 = gx * (2 * dz)) by (unfold gx; field; lra). rewrite E. apply v3_eq; cbn [vscale vx vy vz]; field; lra. Qed.
Lemma vec_y s u : u = s * (2 * dz) → vscale (/ (2 * dz) / secant gy) (V3 0 u (- (y2 - y1))) = vscale (1 / secant gy) (V3 0 s (- gy)).
Proof using Hz. intros ->. pose proof (secant_pos gy). assert (E : y2 - y1 = gy * (2 * dz)) by (unfold gy; field; lra). rewrite E. apply v3_eq; cbn [vscale vx vy vz]; field; lra. Qed.
(** Within half a tolerance of the plane of one face, more than a tolerance away from the planes of the others. *)
Theorem C84_normal p i n c : F !! i = Some (n, c) → Rabs (height n c p) <= kHalfTolerance → (∀ j m e, j ≠ i → F !! j = Some (m, e) → kTolerance < Rabs (height m e p)) → trd_normal t p = (n, true).
Proof using Hz.
  intros Hi Hn Ho. pose proof kHalfTolerance_pos as Hh. assert (HT : kTolerance = 2 * kHalfTolerance) by (unfold kHalfTolerance; lra). rewrite HT in Ho.
  pose proof (secant_pos gx) as Sx. pose proof (secant_pos gy) as Sy.
  set (h0 := (vx p - width dz x1 x2 (vz p)) / secant gx). set (h1 := (- vx p - width dz x1 x2 (vz p)) / secant gx). set (h2 := (vy p - width dz y1 y2 (vz p)) / secant gy). set (h3 := (- vy p - width dz y1 y2 (vz p)) / secant gy).
  assert (HR : List.map (λ nd, height (fst nd) (snd nd) p) F = [h0; h1; h2; h3; vz p - dz; - vz p - dz]) by exact (heights_ramps x1 x2 y1 y2 dz Hz p).
  assert (Hnth : ∀ j m e, F !! j = Some (m, e) → [h0; h1; h2; h3; vz p - dz; - vz p - dz] !! j = Some (height m e p)).
  { intros j m e Hj. rewrite <- HR. change (List.map (λ nd, height (fst nd) (snd nd) p) F) with ((λ nd, height (fst nd) (snd nd) p) <$> F). rewrite list_lookup_fmap, Hj. done. }
  assert (Lk : ∀ j, (j < 6)%nat → ∃ m e, F !! j = Some (m, e)) by (intros j Hj; destruct (F !! j) as [[m e]|] eqn:E; [eauto|]; apply lookup_ge_None_1 in E; cbn in E; lia).
  assert (Oth : ∀ j h, j ≠ i → [h0; h1; h2; h3; vz p - dz; - vz p - dz] !! j = Some h → 2 * kHalfTolerance < Rabs h).
  { intros j h Hj Hl. assert (Hl6 : (j < 6)%nat) by (apply lookup_lt_Some in Hl; exact Hl). destruct (Lk j Hl6) as (m & e & E). specialize (Hnth j m e E) as E'. rewrite Hl in E'. injection E' as ->. by apply (Ho j m e). }
  pose proof (Hnth i n c Hi) as Hhi.
  unfold trd_normal. cbv zeta. change (td_x1 t) with x1. change (td_x2 t) with x2. change (td_y1 t) with y1. change (td_y2 t) with y2. change (td_z t) with dz. rewrite !norm_eq, !dist_eq by auto. fold gx gy.
  replace (-2 * dz / (2 * dz) * vx p) with (- vx p) by (field; lra). replace (2 * dz / (2 * dz) * vx p) with (vx p) by (field; lra). replace (-2 * dz / (2 * dz) * vy p) with (- vy p) by (field; lra). replace (2 * dz / (2 * dz) * vy p) with (vy p) by (field; lra).
  fold h0 h1 h2 h3. rewrite Rabs_Rabsolu. set (hz := Rabs (Rabs (vz p) - dz)).
  match goal with |- (_, rleb ?m _) = _ => set (sm := m) end.
  assert (M0 : sm <= Rabs h0) by (unfold sm, Rmin; repeat destruct (Rle_dec _ _); lra). assert (M1 : sm <= Rabs h1) by (unfold sm, Rmin; repeat destruct (Rle_dec _ _); lra). assert (M2 : sm <= Rabs h2) by (unfold sm, Rmin; repeat destruct (Rle_dec _ _); lra). assert (M3 : sm <= Rabs h3) by (unfold sm, Rmin; repeat destruct (Rle_dec _ _); lra). assert (M4 : sm <= hz) by (unfold sm, Rmin; repeat destruct (Rle_dec _ _); lra).
  assert (M : 0 <= sm) by (unfold sm, hz; repeat apply Rmin_glb; apply Rabs_pos).
  assert (ZZ : hz = Rabs (vz p - dz) ∨ hz = Rabs (- vz p - dz)) by (unfold hz; destruct (Rcase_abs (vz p)) as [L|L]; [right; rewrite (Rabs_left (vz p)) by done|left; rewrite (Rabs_right (vz p)) by done]; done).
  assert (W : ∀ v, vadd vzero v = v) by (intros v; apply v3_eq; cbn; ring).
  destruct i as [|[|[|[|[|[|i]]]]]]; cbn in Hhi; try discriminate; injection Hhi as Hhi; rewrite <- Hhi in Hn; cbn in Hi; injection Hi as <- <-.
  - assert (B : 2 * kHalfTolerance < Rabs h1 ∧ 2 * kHalfTolerance < Rabs h2 ∧ 2 * kHalfTolerance < Rabs h3 ∧ 2 * kHalfTolerance < hz) by (repeat split; [by apply (Oth 1%nat)|by apply (Oth 2%nat)|by apply (Oth 3%nat)|destruct ZZ as [Z|Z]; rewrite Z; [by apply (Oth 4%nat)|by apply (Oth 5%nat)]]).
    rewrite (tally (Rabs h0)) by lra. rewrite !no_tally by lra. cbn [fst snd]. rewrite W. f_equal; [|apply rleb_true; lra]. rewrite mag_x by ring. rewrite secant_opp. apply vec_x; ring.
  - assert (B : 2 * kHalfTolerance < Rabs h0 ∧ 2 * kHalfTolerance < Rabs h2 ∧ 2 * kHalfTolerance < Rabs h3 ∧ 2 * kHalfTolerance < hz) by (repeat split; [by apply (Oth 0%nat)|by apply (Oth 2%nat)|by apply (Oth 3%nat)|destruct ZZ as [Z|Z]; rewrite Z; [by apply (Oth 4%nat)|by apply (Oth 5%nat)]]).
    rewrite (tally (Rabs h1)) by lra. rewrite !no_tally by lra. cbn [fst snd]. rewrite W. f_equal; [|apply rleb_true; lra]. rewrite mag_x by ring. rewrite secant_opp. apply vec_x; ring.
  - assert (B : 2 * kHalfTolerance < Rabs h0 ∧ 2 * kHalfTolerance < Rabs h1 ∧ 2 * kHalfTolerance < Rabs h3 ∧ 2 * kHalfTolerance < hz) by (repeat split; [by apply (Oth 0%nat)|by apply (Oth 1%nat)|by apply (Oth 3%nat)|destruct ZZ as [Z|Z]; rewrite Z; [by apply (Oth 4%nat)|by apply (Oth 5%nat)]]).
    rewrite (tally (Rabs h2)) by lra. rewrite !no_tally by lra. cbn [fst snd]. rewrite W. f_equal; [|apply rleb_true; lra]. rewrite mag_y by ring. rewrite secant_opp. apply vec_y; ring.
  - assert (B : 2 * kHalfTolerance < Rabs h0 ∧ 2 * kHalfTolerance < Rabs h1 ∧ 2 * kHalfTolerance < Rabs h2 ∧ 2 * kHalfTolerance < hz) by (repeat split; [by apply (Oth 0%nat)|by apply (Oth 1%nat)|by apply (Oth 2%nat)|destruct ZZ as [Z|Z]; rewrite Z; [by apply (Oth 4%nat)|by apply (Oth 5%nat)]]).
    rewrite (tally (Rabs h3)) by lra. rewrite !no_tally by lra. cbn [fst snd]. rewrite W. f_equal; [|apply rleb_true; lra]. rewrite mag_y by ring. rewrite secant_opp. apply vec_y; ring.
  - assert (B : 2 * kHalfTolerance < Rabs h0 ∧ 2 * kHalfTolerance < Rabs h1 ∧ 2 * kHalfTolerance < Rabs h2 ∧ 2 * kHalfTolerance < Rabs h3) by (repeat split; [by apply (Oth 0%nat)|by apply (Oth 1%nat)|by apply (Oth 2%nat)|by apply (Oth 3%nat)]).
    assert (Z2 : 2 * kHalfTolerance < Rabs (- vz p - dz)) by (by apply (Oth 5%nat)). apply abs_le in Hn.
    assert (Zp : 0 <= vz p) by (destruct (Rle_dec 0 (vz p)); [done|]; exfalso; revert Z2; unfold Rabs; destruct (Rcase_abs _); lra). assert (Hzz : hz <= kHalfTolerance) by (unfold hz; rewrite (Rabs_pos_eq (vz p)) by done; apply abs_le; lra).
    rewrite (tally hz) by lra. rewrite !no_tally by lra. cbn [fst snd]. rewrite W. f_equal; [|apply rleb_true; lra]. destruct (rgeb_spec (vz p) 0); [done|lra].
  - assert (B : 2 * kHalfTolerance < Rabs h0 ∧ 2 * kHalfTolerance < Rabs h1 ∧ 2 * kHalfTolerance < Rabs h2 ∧ 2 * kHalfTolerance < Rabs h3) by (repeat split; [by apply (Oth 0%nat)|by apply (Oth 1%nat)|by apply (Oth 2%nat)|by apply (Oth 3%nat)]).
    assert (Z2 : 2 * kHalfTolerance < Rabs (vz p - dz)) by (by apply (Oth 4%nat)). apply abs_le in Hn.
    assert (Zp : vz p < 0) by (destruct (Rlt_dec (vz p) 0); [done|]; exfalso; revert Z2; unfold Rabs; destruct (Rcase_abs _); lra). assert (Hzz : hz <= kHalfTolerance) by (unfold hz; rewrite (Rabs_left (vz p)) by done; apply abs_le; lra).
    rewrite (tally hz) by lra. rewrite !no_tally by lra. cbn [fst snd]. rewrite W. f_equal; [|apply rleb_true; lra]. destruct (rgeb_spec (vz p) 0); [lra|done].
Qed.
End Normal.
Print Assumptions C84_normal.
(** The distances are those to the planes: far away in the plane of a face the answer is a normal, and valid. *)
Theorem C84_normal_valid_refuted : ¬ ∀ x1 x2 y1 y2 dz p n, 0 < x1 → 0 < x2 → 0 < y1 → 0 < y2 → 0 < dz → trd_normal (trd_struct x1 x2 y1 y2 dz) p = (n, true) → ∃ q, frustum x1 x2 y1 y2 dz q ∧ vdist p q <= 1.
Proof.
  intros H. assert (HT : kTolerance < 1) by (unfold kTolerance; lra). pose proof kHalfTolerance_pos as Hh.
  destruct (H 1 1 1 1 1 (V3 1 9 0) (fst (wall (V3 1 0 (- ((1 - 1) / (2 * 1)))) ((1 + 1) / 2)))) as (q & (_ & Hq & _) & D); try lra.
  - apply (C84_normal 1 1 1 1 1 ltac:(lra) _ 0%nat _ (snd (wall (V3 1 0 (- ((1 - 1) / (2 * 1)))) ((1 + 1) / 2)))); [rewrite <- surjective_pairing; done| |].
    + unfold height, wall. rewrite mag_x by ring. replace (- ((1 - 1) / (2 * 1))) with 0 by field. rewrite secant_0. cbn. rewrite (Rabs_pos_eq _); lra.
    + intros j m e Hj Hl. pose proof (heights_ramps 1 1 1 1 1 ltac:(lra) (V3 1 9 0)) as HR. cbn [vx vy vz] in HR. rewrite !width_same in HR by lra. replace ((1 - 1) / (2 * 1)) with 0 in HR by field. rewrite secant_0 in HR.
      assert (L : List.map (λ nd, height (fst nd) (snd nd) (V3 1 9 0)) (ramps 1 1 1 1 1) !! j = Some (height m e (V3 1 9 0))).
      { change (((λ nd, height (fst nd) (snd nd) (V3 1 9 0)) <$> ramps 1 1 1 1 1) !! j = Some (height m e (V3 1 9 0))). rewrite list_lookup_fmap, Hl. done. }
      rewrite HR in L. destruct j as [|[|[|[|[|[|j]]]]]]; cbn in L; try discriminate; [done|..]; injection L as <-; unfold Rabs; destruct (Rcase_abs _); lra.
  - rewrite width_same in Hq by lra. apply abs_le in Hq. pose proof (vy_le_mag (vsub (V3 1 9 0) q)) as A. unfold vdist in D. assert (B : Rabs (vy (vsub (V3 1 9 0) q)) <= 1) by lra. apply abs_le in B. cbn in B. lra.
Qed.
Print Assumptions C84_normal_valid_refuted.
(** Not vacuous: the hypotheses of C84_normal in the middle of the x face of a box, of C84_make_inside between half a tolerance and
    a tolerance inside an x face. *)
Example trd_normal_x : trd_normal (trd_struct 1 1 1 1 1) (V3 1 0 0) = (fst (wall (V3 1 0 (- ((1 - 1) / (2 * 1)))) ((1 + 1) / 2)), true).
Proof.
  assert (HT : kTolerance < 1) by (unfold kTolerance; lra). pose proof kHalfTolerance_pos as Hh.
  apply (C84_normal 1 1 1 1 1 ltac:(lra) _ 0%nat _ (snd (wall (V3 1 0 (- ((1 - 1) / (2 * 1)))) ((1 + 1) / 2)))); [rewrite <- surjective_pairing; done| |].
  + unfold height, wall. rewrite mag_x by ring. replace (- ((1 - 1) / (2 * 1))) with 0 by field. rewrite secant_0. cbn. rewrite (Rabs_pos_eq _); lra.
  + intros j m e Hj Hl. pose proof (heights_ramps 1 1 1 1 1 ltac:(lra) (V3 1 0 0)) as HR. cbn [vx vy vz] in HR. rewrite !width_same in HR by lra. replace ((1 - 1) / (2 * 1)) with 0 in HR by field. rewrite secant_0 in HR.
    assert (L : List.map (λ nd, height (fst nd) (snd nd) (V3 1 0 0)) (ramps 1 1 1 1 1) !! j = Some (height m e (V3 1 0 0))).
    { change (((λ nd, height (fst nd) (snd nd) (V3 1 0 0)) <$> ramps 1 1 1 1 1) !! j = Some (height m e (V3 1 0 0))). rewrite list_lookup_fmap, Hl. done. }
    rewrite HR in L. destruct j as [|[|[|[|[|[|j]]]]]]; cbn in L; try discriminate; [done|..]; injection L as <-; unfold Rabs; destruct (Rcase_abs _); lra.
Qed.
Example trd_made : is_box (make_trd false 1 1 2 2 3) = true ∧ is_box (make_trd false 1 2 2 2 3) = false.
Proof. unfold make_trd. destruct (reqb_spec 1 1); [|done]. destruct (reqb_spec 2 2); [|done]. destruct (reqb_spec 1 2); [lra|done]. Qed.
