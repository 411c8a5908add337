(** Properties C16 (for Transformation3D), C17-C21, C60, C61. *)
From stdpp Require Import list option gmap fin_maps.
From Coq Require Import Reals NArith ZArith Bool Lra Lia.
From Verif Require Import Real3 TransModel TransSpec TransProofs TransProofs2.
From Verif Require Import NavTableModel NavTableSpec NavPathModel NavPathSpec NavPathProofs3.
Local Open Scope R_scope.

(** A rotation by the angle with cosine 3/5 about z, combined with a translation. *)
Definition exR : trans := Tr 1 2 3  (3/5) (-4/5) 0  (4/5) (3/5) 0  0 0 1  false true true.
Definition exS : trans := Tr 0 0 (-7)  1 0 0  0 (3/5) (4/5)  0 (-4/5) (3/5)  false true true.
Lemma exR_ok : ortho exR ∧ flags_ok exR ∧ ortho exS ∧ flags_ok exS.
Proof. unfold ortho, flags_ok, exR, exS, row0, row1, row2, vdot; cbn. repeat split; try discriminate; lra. Qed.

(** C16 *)
Definition tr_ops : tops trans := Tops tr_one multiply hast hasr tr_set.
Definition tr_ok (t : trans) : Prop := ortho t ∧ flags_ok t.
Lemma tr_ops_ok : tops_ok tr_ops transform tr_ok.
Proof.
  split; cbn [t_one t_mul t_hast t_hasr t_set tr_ops].
  - destruct one_ok; by split.
  - intros a b [Oa Fa] [Ob Fb]. split; [by apply multiply_ortho|by apply multiply_flags].
  - intros a [Oa Fa]. destruct (set_flags a Fa) as [S F]. split; [by eapply same_map_ortho|done].
  - intros p. rewrite transform_eq. unfold rotate_general, do_translation; cbn. apply v3_eq; cbn; ring.
  - intros a b p [Oa Fa] [Ob Fb]. by apply multiply_transform.
  - intros a p [Oa Fa]. destruct (set_flags a Fa) as [S F]. apply (same_map_transform _ _ p S).
  - intros a p [Oa Fa] Ht Hr. destruct a. unfold flags_ok, row0, row1, row2 in Fa. cbn in *. subst. destruct Fa as (_ & Ft & Fr).
    destruct (Ft eq_refl) as (-> & -> & ->). destruct (Fr eq_refl) as (E0 & E1 & E2).
    injection E0 as -> -> ->. injection E1 as -> -> ->. injection E2 as -> -> ->.
    apply v3_eq; cbn; ring.
Qed.
Theorem C16_transformation3d :
  ∀ (G : geo trans) r limit rank world fuel st,
    r = 1%N ∨ r = 2%N → hierarchy G world rank fuel → create_table G tr_ops r limit fuel world = Some st →
    (∀ v, ortho (g_tr G v) ∧ flags_ok (g_tr G v)) →
    ∀ os a f s, abs_run G world abs_new os = Some a → (256 ≤ f)%nat → nsi_run G (tab st) nsi_new os = Some s →
    ∃ m, nsi_top_matrix G tr_ops r f (tab st) s = Some m ∧
      ∀ p, transform m p = local_point G transform (ab_path a) p.
Proof. intros G r limit rank world fuel st Hr H C Hok. exact (@final_matrix trans G tr_ops r limit rank world fuel st Hr H C v3 transform tr_ok tr_ops_ok Hok). Qed.
Print Assumptions C16_transformation3d.
Theorem C16_transformation3d_path :
  ∀ (G : geo trans) os m s p,
    (∀ v, ortho (g_tr G v) ∧ flags_ok (g_tr G v)) → depth_ok (Nat.min (m + 1) 255) [] os → nsp_run (nsp_make m) os = Some s →
    ∃ mat, nsp_top_matrix G tr_ops s = Some mat ∧ transform mat p = local_point G transform (foldl list_step [] os) p.
Proof. intros G os m s p Hok Hd R. exact (proj1 (final_path_matrix G tr_ops transform tr_ok os m s p tr_ops_ok Hok Hd R)). Qed.
Print Assumptions C16_transformation3d_path.
Definition exGr : geo trans := Geo (λ p, if (p =? 0)%N then [1%N] else []) (λ _, 0%N) (λ _, false) (λ p, if (p =? 1)%N then exR else tr_one).
Example C16_transformation3d_example : hierarchy exGr 0%N (λ p, if (p =? 0)%N then 1%nat else 0%nat) 2 ∧
  (∀ v, ortho (g_tr exGr v) ∧ flags_ok (g_tr exGr v)) ∧ is_Some (abs_run exGr 0%N abs_new [NPush 0; NPush 1]).
Proof.
  split_and!.
  - split.
    + intros p d. cbn. destruct (N.eqb_spec p 0) as [->|]; [|by rewrite elem_of_nil]. rewrite elem_of_list_singleton. intros ->. cbn. lia.
    + intros p k d. cbn. destruct (N.eqb_spec p 0) as [->|]; [|done]. destruct k; cbn; [|done]. done.
    + intros p. cbn. destruct (N.eqb_spec p 0) as [->|]; cbn; lia.
    + intros l Hp. assert (length l ≤ 2)%nat; [|lia].
      assert (∀ v l', l = v :: l' → length l' + (if (v =? 0)%N then 1 else 0) ≤ 1)%nat as Hl.
      { induction Hp as [| |v d l Hp IH Hd]; intros u l'; [done|by intros [= <- <-]|]. intros [= <- <-]. specialize (IH v l eq_refl).
        cbn in Hd. destruct (N.eqb_spec v 0) as [->|]; [|by rewrite elem_of_nil in Hd]. apply elem_of_list_singleton in Hd as ->. cbn in *. lia. }
      destruct l as [|v l]; [cbn; lia|]. specialize (Hl v l eq_refl). cbn. lia.
    + cbn. lia.
  - intros v. cbn. destruct (v =? 1)%N; [split; apply exR_ok|]. destruct one_ok. by split.
  - by eexists.
Qed.

(** C17 *)
Theorem C17_round_trip :
  ∀ t, ortho t → ∀ p, inverse_transform t (transform t p) = p ∧ transform t (inverse_transform t p) = p.
Proof. intros t H p. split; [by apply inverse_of_transform|by apply transform_of_inverse]. Qed.
Print Assumptions C17_round_trip.
Theorem C17_isometry :
  ∀ t, ortho t → ∀ p q, vdist (transform t p) (transform t q) = vdist p q ∧
    vdist (inverse_transform t p) (inverse_transform t q) = vdist p q.
Proof. intros t H p q. split; [by apply transform_dist|by apply inverse_dist]. Qed.
Print Assumptions C17_isometry.
Theorem C17_directions :
  ∀ t, ortho t → ∀ u v, vdot (transform_direction t u) (transform_direction t v) = vdot u v ∧
    inverse_transform_direction t (transform_direction t u) = u ∧ transform_direction t (inverse_transform_direction t u) = u.
Proof. intros t H u v. split; [by apply direction_dot|by apply inverse_direction]. Qed.
Print Assumptions C17_directions.
Theorem C17_inverse :
  ∀ t, ortho t → ∀ p, transform (inverse t) p = inverse_transform t p ∧ inverse_transform (inverse t) p = transform t p.
Proof. intros t H p. by apply inverse_is_inverse. Qed.
Print Assumptions C17_inverse.
(** Inverse() is right for every invertible matrix, as the inverse of the local-to-master map. *)
Theorem C17_inverse_invertible :
  ∀ t, determinant t ≠ 0 → ∀ l, inverse_transform (inverse t) (inverse_transform t l) = l ∧
    inverse_transform t (inverse_transform (inverse t) l) = l.
Proof. intros t H l. by apply inverse_affine. Qed.
Print Assumptions C17_inverse_invertible.
Example C17_example : ortho exR ∧ transform exR (V3 1 2 8) = V3 0 0 5 ∧ transform exR (V3 2 2 3) = V3 (3/5) (-4/5) 0.
Proof. split; [apply exR_ok|]. split; apply v3_eq; cbn; lra. Qed.
(** A transformation built with scale factors is not undone by InverseTransform. *)
Theorem C17_scaled_refuted :
  ∃ t p, t = set_properties (apply_scale (set_rotation (Tr 0 0 0 1 0 0 0 1 0 0 0 1 false true true) 0 0 0) 2 1 1) ∧
    inverse_transform t (transform t p) ≠ p.
Proof.
  eexists _, (V3 1 0 0). split; [reflexivity|]. intros E. apply (f_equal vx) in E.
  unfold inverse_transform, transform in E. cbn in E. rewrite Rmult_0_r, sin_0, cos_0 in E. lra.
Qed.
Print Assumptions C17_scaled_refuted.

(** C18 *)
Theorem C18_composition :
  ∀ a b, flags_ok b → ortho a → ortho b → ∀ p, transform (multiply a b) p = transform b (transform a p).
Proof. intros. by apply multiply_transform. Qed.
Print Assumptions C18_composition.
Theorem C18_composition_directions :
  ∀ a b, flags_ok b → ∀ v, transform_direction (multiply a b) v = transform_direction b (transform_direction a v) ∧
    inverse_transform (multiply a b) v = inverse_transform a (inverse_transform b v).
Proof. intros a b F v. split; [by apply multiply_direction|by apply multiply_inverse_transform]. Qed.
Print Assumptions C18_composition_directions.
Theorem C18_closed :
  ∀ a b, flags_ok a → flags_ok b → ortho a → ortho b → ortho (multiply a b) ∧ flags_ok (multiply a b).
Proof. intros. split; [by apply multiply_ortho|by apply multiply_flags]. Qed.
Print Assumptions C18_closed.
Theorem C18_associative :
  ∀ a b c, flags_ok b → flags_ok c → same_map (multiply (multiply a b) c) (multiply a (multiply b c)).
Proof. intros. by apply multiply_assoc. Qed.
Print Assumptions C18_associative.
(** Where the flags come from. *)
Theorem C18_flags :
  (∀ x y z, flags_ok (tr_translation x y z) ∧ ortho (tr_translation x y z)) ∧ (flags_ok tr_one ∧ ortho tr_one) ∧
  (∀ t, clear_translation t → clear_rotation t → flags_ok (set_properties t) ∧ same_map (set_properties t) t).
Proof. split; [apply translation_ok|]. split; [apply one_ok|apply final_general_flags]. Qed.
Print Assumptions C18_flags.
Example C18_example : flags_ok exR ∧ ortho exR ∧ flags_ok exS ∧ ortho exS ∧
  transform (multiply exR exS) (V3 1 2 8) = transform exS (V3 0 0 5).
Proof.
  destruct exR_ok as (O & F & O' & F'). split_and!; try done. rewrite C18_composition by done. f_equal. apply v3_eq; cbn; lra.
Qed.
(** A translation below the tolerance is flagged away by the general constructor, and lost by
    MultiplyFromRight although Transform applies it. *)
Theorem C18_tiny_translation_refuted :
  ∃ b p, b = tr_general (kTolerance / 2) 0 0 1 0 0 0 1 0 0 0 1 ∧ ortho b ∧
    transform (multiply tr_one b) p ≠ transform b (transform tr_one p).
Proof.
  eexists _, vzero. split; [reflexivity|]. split; [unfold ortho, row0, row1, row2, vdot; cbn; split_and!; lra|].
  intros E. apply (f_equal vx) in E. assert (idn (tr_general (kTolerance / 2) 0 0 1 0 0 0 1 0 0 0 1) = true) as Hi.
  { unfold tr_general, set_properties, rotation_code, raw_code. cbn [idn r0 r1 r2 r3 r4 r5 r6 r7 r8 t0 t1 t2].
    rewrite !bit_0, !bit_1 by (apply abs_big; unfold kTolerance; lra).
    assert (∀ x, Rabs x <= kTolerance → rgtb (Rabs x) kTolerance = false) as K by (intros x Hx; destruct (rgtb_spec (Rabs x) kTolerance); [lra|done]).
    rewrite !K; [cbn|rewrite Rabs_R0; pose proof kTolerance_pos; lra..|rewrite Rabs_pos_eq; pose proof kTolerance_pos; lra].
    destruct (reqb_spec 1 1); [done|lra]. }
  unfold multiply in E. rewrite Hi in E. cbn in E. pose proof kTolerance_pos. lra.
Qed.
Print Assumptions C18_tiny_translation_refuted.

(** C19.  [rotate_general] is the full product with the transposed matrix. *)
Theorem C19_specialised_kernels_partial :
  ∀ t m, rotation_code t ≠ 0x16A%Z → rotation_code t ≠ 0x046%Z →
    near (kTolerance * norm1 m) (do_rotation (rotation_code t) t m) (rotate_general t m) ∧
    (clear_rotation t → do_rotation (rotation_code t) t m = rotate_general t m).
Proof. intros t m H1 H2. split; [by apply final_codes_near|]. intros. by apply final_codes. Qed.
Print Assumptions C19_specialised_kernels_partial.
(** Orthogonal matrices can only fail with code 0x16A. *)
Theorem C19_orthogonal_partial :
  ∀ t m, ortho t → clear_rotation t → rotation_code t ≠ 0x16A%Z → do_rotation (rotation_code t) t m = rotate_general t m.
Proof. intros t m O C H. apply final_codes; [done|]. split; [done|by apply ortho_code]. Qed.
Print Assumptions C19_orthogonal_partial.
Theorem C19_new_kernel :
  ∀ t m, near (kTolerance * norm1 m) (do_rotation_new (rotation_code t) t m) (rotate_general t m) ∧
    (clear_rotation t → do_rotation_new (rotation_code t) t m = rotate_general t m).
Proof. intros t m. split; [by apply final_codes_new|]. intros. by apply final_codes_new0. Qed.
Print Assumptions C19_new_kernel.
Theorem C19_specialised_transform_partial :
  ∀ t m, clear_rotation t → flags_ok t → rotation_code t ≠ 0x16A%Z → rotation_code t ≠ 0x046%Z →
    transform_code (translation_code t) (rotation_code t) t m = transform t m ∧
    transform_direction_code (rotation_code t) t m = transform_direction t m.
Proof. intros t m C F H1 H2. by apply final_transform_codes. Qed.
Print Assumptions C19_specialised_transform_partial.
Theorem C19_code_16A_refuted :
  ∃ t m, ortho t ∧ determinant t = 1 ∧ rotation_code t = 0x16A%Z ∧ do_rotation (rotation_code t) t m ≠ rotate_general t m.
Proof.
  exists bad_rot, (V3 0 1 0). rewrite bad_rot_code. unfold ortho, determinant, row0, row1, row2, vdot; cbn.
  split_and!; try lra; try reflexivity. intros E. apply (f_equal vz) in E. cbn in E. lra.
Qed.
Print Assumptions C19_code_16A_refuted.
Theorem C19_code_046_refuted :
  ∃ t m, rotation_code t = 0x046%Z ∧ do_rotation (rotation_code t) t m ≠ rotate_general t m.
Proof.
  exists bad_rot2, (V3 1 0 0). rewrite bad_rot2_code. split; [done|]. intros E. apply (f_equal vy) in E. cbn in E. lra.
Qed.
Print Assumptions C19_code_046_refuted.
Example C19_example : rotation_code exR = 0x11B%Z ∧ clear_rotation exR.
Proof.
  assert (∀ x, kTolerance < x ∨ kTolerance < - x → kTolerance < Rabs x) as K by exact abs_big. split.
  - unfold rotation_code, raw_code, exR; cbn [r0 r1 r2 r3 r4 r5 r6 r7 r8]. rewrite !bit_0. rewrite !bit_1 by (apply K; unfold kTolerance; lra). done.
  - unfold clear_rotation, clear_cut, exR; cbn. split_and!; try (left; lra); right; apply K; unfold kTolerance; lra.
Qed.

(** C20 *)
Theorem C20_euler :
  ∀ t phi theta psi, ortho (set_rotation t phi theta psi) ∧ determinant (set_rotation t phi theta psi) = 1 ∧
    rot_of (set_rotation t phi theta psi) = mmul (mmul (rot_z phi) (rot_x theta)) (rot_z psi).
Proof. intros. destruct (final_euler t phi theta psi). split_and!; try done. apply final_euler_zxz. Qed.
Print Assumptions C20_euler.
(** The comment on the constructor promises a rotation about the new y axis for theta. *)
Theorem C20_about_y_refuted :
  ∃ t phi theta psi, rot_of (set_rotation t phi theta psi) ≠ mmul (mmul (rot_z phi) (rot_y theta)) (rot_z psi).
Proof.
  exists tr_one, 0, 90, 0. intros E. apply (f_equal (λ m, vz (mr0 m))) in E. cbn in E. unfold vdot in E; cbn in E.
  unfold kDegToRad in E. rewrite !Rmult_0_r, sin_0, cos_0 in E. replace (PI / 180 * 90) with (PI / 2) in E by field. rewrite sin_PI2 in E. unfold vdot in E; cbn in E. lra.
Qed.
Print Assumptions C20_about_y_refuted.
Example C20_example : set_rotation tr_one 0 0 0 = tr_one.
Proof. unfold set_rotation, tr_one; cbn. rewrite Rmult_0_r, sin_0, cos_0. f_equal; ring. Qed.

(** C21 *)
Theorem C21_scale :
  ∀ s, vx s ≠ 0 ∧ vy s ≠ 0 ∧ vz s ≠ 0 →
    (∀ p, sc_inverse (sc_make s) (sc_transform (sc_make s) p) = p ∧ sc_transform (sc_make s) (sc_inverse (sc_make s) p) = p) ∧
    (∀ p d t, 0 <= t →
       vdist (sc_inverse (sc_make s) p) (sc_inverse (sc_make s) (along p d t)) = sc_inverse_distance (sc_make s) t d ∧
       vdist (sc_transform (sc_make s) p) (sc_transform (sc_make s) (along p d t)) = sc_distance (sc_make s) t d) ∧
    (∀ p q safety, safety <= vdist p q →
       sc_safety (sc_make s) safety <= vdist (sc_transform (sc_make s) p) (sc_transform (sc_make s) q) ∧
       sc_inverse_safety (sc_make s) safety <= vdist (sc_inverse (sc_make s) p) (sc_inverse (sc_make s) q)).
Proof.
  intros s H. split_and!; [by apply sc_round|intros; by apply sc_dist|]. intros p q f Hf. split; by apply sc_safe.
Qed.
Print Assumptions C21_scale.
(** Normals stay perpendicular to mapped tangents, with the sign of the product of the factors. *)
Theorem C21_normals :
  ∀ s, vx s ≠ 0 ∧ vy s ≠ 0 ∧ vz s ≠ 0 → ∀ n v,
    vdot (sc_inverse_normal (sc_make s) n) (sc_inverse (sc_make s) v) = vx s * vy s * vz s * vdot n v ∧
    vx s * vy s * vz s * vdot (sc_normal (sc_make s) n) (sc_transform (sc_make s) v) = vdot n v.
Proof. intros s H n v. by apply sc_normals. Qed.
Print Assumptions C21_normals.
(** So a reflecting scale turns outward normals inward. *)
Theorem C21_reflected_normal_refuted :
  ∃ s n v, vx s ≠ 0 ∧ vy s ≠ 0 ∧ vz s ≠ 0 ∧ 0 < vdot n v ∧
    vdot (sc_inverse_normal (sc_make s) n) (sc_inverse (sc_make s) v) < 0.
Proof.
  exists (V3 1 1 (-1)), (V3 0 0 1), (V3 0 0 1). unfold vdot; cbn. split_and!; lra.
Qed.
Print Assumptions C21_reflected_normal_refuted.
Example C21_example : sc_inverse (sc_make (V3 2 (-3) 4)) (V3 1 1 1) = V3 2 (-3) 4 ∧ smas (sc_make (V3 2 (-3) 4)) = 2.
Proof.
  split; [apply v3_eq; cbn; ring|]. cbn. rewrite (Rabs_left (-3)), !Rabs_pos_eq by lra.
  unfold Rmin. destruct (Rle_dec 2 (- -3)); [|lra]. destruct (Rle_dec 2 4); lra.
Qed.

(** C60.  [g1], [g2] are the global matrices of the two states. *)
Theorem C60_delta_transformation :
  ∀ g1 g2, ortho g1 → ortho g2 →
    (flags_ok g2 → clear_all (inverse g1) → clear_all (multiply (inverse g1) g2) →
     ∀ p, transform (delta_index g1 g2) (transform g1 p) = transform g2 p) ∧
    (clear_all g2 → clear_all (inverse g1) → clear_all (multiply (set_properties (inverse g1)) (set_properties g2)) →
     ∀ p, transform (delta_path g1 g2) (transform g1 p) = transform g2 p).
Proof. intros g1 g2 O1 O2. split; intros; [by apply final_delta_index|by apply final_delta_path]. Qed.
Print Assumptions C60_delta_transformation.
Theorem C60_fix_zeroes :
  ∀ t, (clear_all t → fix_zeroes t = t) ∧ ∀ x, Rabs (fix_zero x - x) <= kTolerance.
Proof. intros t. split; [apply fix_zeroes_clear|apply fix_zero_near]. Qed.
Print Assumptions C60_fix_zeroes.
Example C60_example : ortho (tr_translation 1 0 0) ∧ flags_ok (tr_translation 0 2 0) ∧ clear_all (inverse (tr_translation 1 0 0)) ∧
  clear_all (multiply (inverse (tr_translation 1 0 0)) (tr_translation 0 2 0)).
Proof.
  assert (∀ x, kTolerance < x ∨ kTolerance < - x → clear_cut x) as K by (intros x Hx; right; by apply abs_big).
  assert (∀ x, x = 0 → clear_cut x) as K0 by (intros x Hx; by left).
  split_and!; [apply translation_ok..| |].
  - unfold clear_all, clear_translation, clear_rotation, inverse, determinant; cbn.
    split_and!; first [apply K0; lra|apply K; unfold kTolerance; lra].
  - unfold clear_all, clear_translation, clear_rotation, multiply. replace (idn (tr_translation 0 2 0)) with false.
    2:{ cbn. destruct (reqb_spec 2 0); [lra|]. by rewrite andb_false_r. }
    cbn. destruct (reqb_spec 2 0); [lra|]. destruct (reqb_spec 0 0); [|lra]. unfold inverse, determinant; cbn.
    split_and!; first [apply K0; lra|apply K; unfold kTolerance; lra].
Qed.

(** C61 *)
Theorem C61_axis_constructor :
  ∀ p q, transform_direction (tr_axis p q true) (polar p q) = V3 0 0 1 ∧
    transform_direction (tr_axis p q false) (V3 0 0 1) = polar p q ∧ ortho (tr_axis p q true) ∧ ortho (tr_axis p q false).
Proof. exact final_axis. Qed.
Print Assumptions C61_axis_constructor.
Example C61_example : polar 0 (PI / 2) = V3 1 0 0.
Proof. unfold polar. rewrite sin_PI2, cos_PI2, sin_0, cos_0. apply v3_eq; cbn; ring. Qed.
