(** Rotation codes, Euler angles, delta transformations and scales. *)
From Coq Require Import Reals ZArith Bool Lra Lia Psatz.
From Verif Require Import Real3 TransModel TransSpec TransProofs.
Local Open Scope R_scope.

(** * C19 *)
Definition good_code (c : Z) : Prop := c <> 0x16A%Z /\ c <> 0x046%Z.
Lemma bits_code (b0 b1 b2 b3 b4 b5 b6 b7 b8 : bool) :
  let w (i : Z) (b : bool) := if b then (2 ^ i)%Z else 0%Z in
  let c := (w 0 b0 + w 1 b1 + w 2 b2 + w 3 b3 + w 4 b4 + w 5 b5 + w 6 b6 + w 7 b7 + w 8 b8)%Z in
  Z.testbit c 0 = b0 /\ Z.testbit c 1 = b1 /\ Z.testbit c 2 = b2 /\ Z.testbit c 3 = b3 /\ Z.testbit c 4 = b4 /\
  Z.testbit c 5 = b5 /\ Z.testbit c 6 = b6 /\ Z.testbit c 7 = b7 /\ Z.testbit c 8 = b8 /\ (c =? kIdentity)%Z = false.
Proof. destruct b0, b1, b2, b3, b4, b5, b6, b7, b8; repeat split; reflexivity. Qed.
Lemma raw_bits t : let c := raw_code t in
  Z.testbit c 0 = rgtb (Rabs (r0 t)) kTolerance /\ Z.testbit c 1 = rgtb (Rabs (r1 t)) kTolerance /\
  Z.testbit c 2 = rgtb (Rabs (r2 t)) kTolerance /\ Z.testbit c 3 = rgtb (Rabs (r3 t)) kTolerance /\
  Z.testbit c 4 = rgtb (Rabs (r4 t)) kTolerance /\ Z.testbit c 5 = rgtb (Rabs (r5 t)) kTolerance /\
  Z.testbit c 6 = rgtb (Rabs (r6 t)) kTolerance /\ Z.testbit c 7 = rgtb (Rabs (r7 t)) kTolerance /\
  Z.testbit c 8 = rgtb (Rabs (r8 t)) kTolerance /\ (c =? kIdentity)%Z = false.
Proof. apply bits_code. Qed.

Section Near.
Variables (t : trans) (eta : R).
Hypothesis Heta : 0 <= eta.
Definition small (x : R) := Rabs x <= kTolerance -> Rabs x <= eta.
Hypothesis Hs : small (r0 t) /\ small (r1 t) /\ small (r2 t) /\ small (r3 t) /\ small (r4 t) /\ small (r5 t) /\
  small (r6 t) /\ small (r7 t) /\ small (r8 t).
Lemma not_gt x : false = rgtb (Rabs x) kTolerance -> Rabs x <= kTolerance.
Proof. intros E. destruct (rgtb_spec (Rabs x) kTolerance); [discriminate|lra]. Qed.
Lemma prod_small y r : Rabs r <= eta -> - (eta * Rabs y) <= y * r <= eta * Rabs y.
Proof.
  intros Hr. assert (Rabs (y * r) <= eta * Rabs y) as H.
  { rewrite Rabs_mult, Rmult_comm. apply Rmult_le_compat_r; [apply Rabs_pos|exact Hr]. }
  apply abs_le_inv in H. lra.
Qed.
(* a component of the general product with some small entries left out *)
Lemma near_comp (keep : R) x y z a b c d :
  d = keep - (x * a + y * b + z * c) ->
  (keep = x * a + y * b + z * c
   \/ (keep = x * a + y * b /\ Rabs c <= eta) \/ (keep = x * a + z * c /\ Rabs b <= eta) \/ (keep = y * b + z * c /\ Rabs a <= eta)
   \/ (keep = x * a /\ Rabs b <= eta /\ Rabs c <= eta) \/ (keep = y * b /\ Rabs a <= eta /\ Rabs c <= eta)
   \/ (keep = z * c /\ Rabs a <= eta /\ Rabs b <= eta)) ->
  Rabs d <= eta * (Rabs x + Rabs y + Rabs z).
Proof.
  intros -> H. pose proof (Rabs_pos x) as Px; pose proof (Rabs_pos y) as Py; pose proof (Rabs_pos z) as Pz.
  assert (0 <= eta * Rabs x /\ 0 <= eta * Rabs y /\ 0 <= eta * Rabs z) as (P1 & P2 & P3) by (repeat split; apply Rmult_le_pos; assumption).
  rewrite !Rmult_plus_distr_l. apply Rabs_le.
  destruct H as [E|[(E & H1)|[(E & H1)|[(E & H1)|[(E & H1 & H2)|[(E & H1 & H2)|(E & H1 & H2)]]]]]]; rewrite E.
  - lra.
  - pose proof (prod_small z c H1). lra.
  - pose proof (prod_small y b H1). lra.
  - pose proof (prod_small x a H1). lra.
  - pose proof (prod_small y b H1); pose proof (prod_small z c H2). lra.
  - pose proof (prod_small x a H1); pose proof (prod_small z c H2). lra.
  - pose proof (prod_small x a H1); pose proof (prod_small y b H2). lra.
Qed.
Lemma rot_near_raw c m : c = raw_code t -> good_code c -> near (eta * norm1 m) (do_rotation c t m) (rotate_general t m).
Proof.
  intros Ec [Hn Hn']. destruct (raw_bits t) as (B0 & B1 & B2 & B3 & B4 & B5 & B6 & B7 & B8 & BI). rewrite <- Ec in *. clear Ec.
  destruct Hs as (S0 & S1 & S2 & S3 & S4 & S5 & S6 & S7 & S8).
  assert (near (eta * norm1 m) (rotate_general t m) (rotate_general t m)) as Hgen.
  { assert (0 <= eta * norm1 m). { apply Rmult_le_pos; [exact Heta|]. unfold norm1. pose proof (Rabs_pos (vx m)); pose proof (Rabs_pos (vy m)); pose proof (Rabs_pos (vz m)). lra. }
    unfold near. rewrite !Rminus_diag_eq, Rabs_R0 by reflexivity. auto. }
  unfold do_rotation.
  repeat match goal with |- near _ (if (?a =? ?b)%Z then _ else _) _ =>
    destruct (Z.eqb_spec a b) as [E|_]; [subst a|] end; try exact Hgen; try contradiction; try discriminate BI;
  cbn in B0, B1, B2, B3, B4, B5, B6, B7, B8;
  repeat match goal with H : false = rgtb (Rabs ?x) kTolerance |- _ => apply not_gt in H end;
  repeat match goal with S : small ?x, B : Rabs ?x <= kTolerance |- _ => apply S in B; clear S end;
  unfold rotate_general, near, norm1; cbn [vx vy vz]; (split; [|split]);
  (eapply near_comp; [reflexivity|]); tauto.
Qed.
Lemma rot_near_id m : r0 t = 1 -> r4 t = 1 -> r8 t = 1 -> raw_code t = kDiagonal -> near (eta * norm1 m) m (rotate_general t m).
Proof.
  intros E0 E4 E8 Ec. pose proof (rot_near_raw kDiagonal m (eq_sym Ec) ltac:(split; discriminate)) as H.
  unfold do_rotation in H. cbn [Z.eqb Pos.eqb kDiagonal] in H. rewrite E0, E4, E8, !Rmult_1_r in H. destruct m. exact H.
Qed.
Lemma rot_near m : good_code (rotation_code t) -> near (eta * norm1 m) (do_rotation (rotation_code t) t m) (rotate_general t m).
Proof.
  unfold rotation_code. cbv zeta. destruct (Z.eqb_spec (raw_code t) kDiagonal) as [E|E]; cbn [andb].
  - destruct (reqb_spec (r0 t) 1); [destruct (reqb_spec (r4 t) 1); [destruct (reqb_spec (r8 t) 1)|]|]; cbn [andb]; intros Hn;
      try (now apply rot_near_raw). change (do_rotation kIdentity t m) with m. now apply rot_near_id.
  - now apply rot_near_raw.
Qed.
Lemma term_small x a : small a -> Rabs ((if rgtb (Rabs a) kTolerance then x * a else 0) - x * a) <= eta * Rabs x.
Proof.
  intros S. pose proof (Rabs_pos x) as P. assert (0 <= eta * Rabs x) by (apply Rmult_le_pos; assumption).
  destruct (rgtb_spec (Rabs a) kTolerance) as [_|G].
  - rewrite Rminus_diag_eq, Rabs_R0 by reflexivity. assumption.
  - apply Rabs_le. pose proof (prod_small x a (S (Rnot_gt_le _ _ G))). lra.
Qed.
Lemma rot_new_near m : near (eta * norm1 m) (do_rotation_new (rotation_code t) t m) (rotate_general t m).
Proof.
  assert (near (eta * norm1 m) (do_rotation_new (raw_code t) t m) (rotate_general t m)) as H.
  { destruct (raw_bits t) as (B0 & B1 & B2 & B3 & B4 & B5 & B6 & B7 & B8 & BI).
    destruct Hs as (S0 & S1 & S2 & S3 & S4 & S5 & S6 & S7 & S8).
    unfold do_rotation_new, when. rewrite BI, B0, B1, B2, B3, B4, B5, B6, B7, B8.
    assert (forall x y z a b c, small a -> small b -> small c ->
      Rabs ((if rgtb (Rabs a) kTolerance then x * a else 0) + (if rgtb (Rabs b) kTolerance then y * b else 0)
            + (if rgtb (Rabs c) kTolerance then z * c else 0) - (x * a + y * b + z * c)) <= eta * (Rabs x + Rabs y + Rabs z)) as K.
    { intros x y z a b c Sa Sb Sc. pose proof (abs_le_inv _ _ (term_small x a Sa)). pose proof (abs_le_inv _ _ (term_small y b Sb)).
      pose proof (abs_le_inv _ _ (term_small z c Sc)). rewrite !Rmult_plus_distr_l. apply Rabs_le. lra. }
    unfold near, norm1, rotate_general; cbn [vx vy vz]. split; [|split]; apply K; assumption. }
  unfold rotation_code. cbv zeta. destruct (Z.eqb_spec (raw_code t) kDiagonal) as [E|E]; cbn [andb]; [|exact H].
  destruct (reqb_spec (r0 t) 1); [destruct (reqb_spec (r4 t) 1); [destruct (reqb_spec (r8 t) 1)|]|]; cbn [andb]; try exact H.
  change (do_rotation_new kIdentity t m) with m. now apply rot_near_id.
Qed.
End Near.

Lemma near_0 a b : near 0 a b -> a = b.
Proof.
  intros (H1 & H2 & H3). assert (forall x y, Rabs (x - y) <= 0 -> x = y) as K.
  { intros x y H. apply abs_le_inv in H. lra. }
  apply v3_eq; now apply K.
Qed.
Lemma clear_small x : clear_cut x -> small 0 x.
Proof. intros [-> | H] L; [rewrite Rabs_R0; lra|lra]. Qed.
Lemma final_codes_near t m : good_code (rotation_code t) ->
  near (kTolerance * norm1 m) (do_rotation (rotation_code t) t m) (rotate_general t m).
Proof. intros. apply rot_near; auto; [pose proof kTolerance_pos; lra|]. unfold small. tauto. Qed.
Lemma final_codes_new t m : near (kTolerance * norm1 m) (do_rotation_new (rotation_code t) t m) (rotate_general t m).
Proof. intros. apply rot_new_near; auto; [pose proof kTolerance_pos; lra|]. unfold small. tauto. Qed.
Lemma clear_all_small t : clear_rotation t -> small 0 (r0 t) /\ small 0 (r1 t) /\ small 0 (r2 t) /\ small 0 (r3 t) /\ small 0 (r4 t) /\ small 0 (r5 t) /\
  small 0 (r6 t) /\ small 0 (r7 t) /\ small 0 (r8 t).
Proof. intros (C0 & C1 & C2 & C3 & C4 & C5 & C6 & C7 & C8). repeat split; now apply clear_small. Qed.
Lemma final_codes t m : clear_rotation t -> good_code (rotation_code t) -> do_rotation (rotation_code t) t m = rotate_general t m.
Proof. intros H%clear_all_small Hn. apply near_0. pose proof (rot_near t 0 (Rle_refl 0) H m Hn) as K. now rewrite Rmult_0_l in K. Qed.
Lemma final_codes_new0 t m : clear_rotation t -> do_rotation_new (rotation_code t) t m = rotate_general t m.
Proof. intros H%clear_all_small. apply near_0. pose proof (rot_new_near t 0 (Rle_refl 0) H m) as K. now rewrite Rmult_0_l in K. Qed.
Lemma final_transform_codes t m : clear_rotation t -> flags_ok t -> good_code (rotation_code t) ->
  transform_code (translation_code t) (rotation_code t) t m = transform t m /\
  transform_direction_code (rotation_code t) t m = transform_direction t m.
Proof.
  intros C (_ & Ft & _) Hn. change (transform t m) with (rotate_general t (do_translation t m)). change (transform_direction t m) with (rotate_general t m). split.
  - unfold transform_code, translation_code. pose proof (final_codes t m C Hn) as E1. pose proof (final_codes t (do_translation t m) C Hn) as E2.
    destruct (hast t); cbn [Z.eqb negb andb].
    + destruct (Z.eqb_spec (rotation_code t) kIdentity) as [E|E]; [|exact E2]. rewrite E in E2. exact E2.
    + destruct (Ft eq_refl) as (T0 & T1 & T2). replace (do_translation t m) with m by (unfold do_translation; apply v3_eq; cbn; rewrite ?T0, ?T1, ?T2; ring).
      destruct (Z.eqb_spec (rotation_code t) kIdentity) as [E|E]; [rewrite E in E1|]; exact E1.
  - pose proof (final_codes t m C Hn) as E1. unfold transform_direction_code.
    destruct (Z.eqb_spec (rotation_code t) kIdentity) as [E|E]; [rewrite E in E1|]; exact E1.
Qed.
Lemma bit_0 i : bit i 0 = 0%Z.
Proof. unfold bit. destruct (rgtb_spec (Rabs 0) kTolerance) as [H|]; auto. rewrite Rabs_R0 in H. pose proof kTolerance_pos. lra. Qed.
Lemma bit_1 i x : kTolerance < Rabs x -> bit i x = (2 ^ i)%Z.
Proof. intros H. unfold bit. destruct (rgtb_spec (Rabs x) kTolerance); auto. lra. Qed.
Definition bad_rot : trans := Tr 0 0 0  0 (-1) 0  (3/5) 0 (4/5)  (-4/5) 0 (3/5)  false true false.
Lemma abs_big x : kTolerance < x \/ kTolerance < - x -> kTolerance < Rabs x.
Proof. unfold Rabs. destruct (Rcase_abs x); pose proof kTolerance_pos; intros [|]; lra. Qed.
Lemma bad_rot_code : rotation_code bad_rot = 0x16A%Z.
Proof.
  unfold rotation_code, raw_code, bad_rot; cbn [r0 r1 r2 r3 r4 r5 r6 r7 r8].
  rewrite !bit_0. rewrite !bit_1 by (apply abs_big; unfold kTolerance; lra). reflexivity.
Qed.

Definition bad_rot2 : trans := Tr 0 0 0  0 1 1  0 0 0  1 0 0  false true false.
Lemma bad_rot2_code : rotation_code bad_rot2 = 0x046%Z.
Proof.
  unfold rotation_code, raw_code, bad_rot2; cbn [r0 r1 r2 r3 r4 r5 r6 r7 r8].
  rewrite !bit_0. rewrite !bit_1 by (apply abs_big; unfold kTolerance; lra). reflexivity.
Qed.
(** The second code needs a row of zeros, so orthogonal matrices never have it. *)
Lemma ortho_code t : ortho t -> rotation_code t <> 0x046%Z.
Proof.
  intros H E. assert (raw_code t = 0x046%Z) as Er.
  { revert E. unfold rotation_code. cbv zeta. destruct ((raw_code t =? kDiagonal)%Z && _); [discriminate|auto]. }
  destruct (raw_bits t) as (B0 & B1 & B2 & B3 & B4 & B5 & B6 & B7 & B8 & BI). rewrite Er in *. cbn in B3, B4, B5.
  apply not_gt in B3, B4, B5. destruct (ortho_rows t H) as (_ & H1 & _).
  assert (forall x, Rabs x <= kTolerance -> x * x <= /100) as K.
  { intros x Hx. apply abs_le_inv in Hx. assert (kTolerance <= / 10) by (unfold kTolerance; lra). nra. }
  pose proof (K _ B3). pose proof (K _ B4). pose proof (K _ B5). lra.
Qed.

(** * Flags after construction *)
Lemma final_general_flags t : clear_translation t -> clear_rotation t -> flags_ok (set_properties t) /\ same_map (set_properties t) t.
Proof.
  intros (C0 & C1 & C2) (D0 & D1 & D2 & D3 & D4 & D5 & D6 & D7 & D8).
  split; [|unfold same_map, set_properties, row0, row1, row2; cbn; auto 10].
  unfold flags_ok, set_properties, row0, row1, row2; cbn [idn hast hasr t0 t1 t2 r0 r1 r2 r3 r4 r5 r6 r7 r8]. split; [reflexivity|]. split.
  - intros E. apply orb_false_iff in E as [E E2]. apply orb_false_iff in E as [E0 E1].
    symmetry in E0, E1, E2. apply not_gt in E0, E1, E2. destruct C0 as [|?]; [|lra]. destruct C1 as [|?]; [|lra]. destruct C2; [auto|lra].
  - intros E. apply negb_false_iff in E. destruct (raw_bits t) as (B0 & B1 & B2 & B3 & B4 & B5 & B6 & B7 & B8 & BI).
    unfold rotation_code in E. cbv zeta in E. destruct (Z.eqb_spec (raw_code t) kDiagonal) as [Er|Er]; cbn [andb] in E; [|congruence].
    destruct (reqb_spec (r0 t) 1) as [->|]; [destruct (reqb_spec (r4 t) 1) as [->|]; [destruct (reqb_spec (r8 t) 1) as [->|]|]|]; cbn [andb] in E; try congruence.
    rewrite Er in *. cbn in B1, B2, B3, B5, B6, B7. apply not_gt in B1, B2, B3, B5, B6, B7.
    destruct D1 as [->|?]; [|lra]. destruct D2 as [->|?]; [|lra]. destruct D3 as [->|?]; [|lra]. destruct D5 as [->|?]; [|lra].
    destruct D6 as [->|?]; [|lra]. destruct D7 as [->|?]; [|lra]. auto.
Qed.

(** * C20, C61 *)
Lemma sc1 x : sin x * sin x = 1 - cos x * cos x.
Proof. pose proof (sin2_cos2 x) as H. unfold Rsqr in H. lra. Qed.
Lemma final_euler_zxz t phi theta psi : rot_of (set_rotation t phi theta psi) = mmul (mmul (rot_z phi) (rot_x theta)) (rot_z psi).
Proof. unfold rot_of, set_rotation, mmul, mrow, mcol, rot_z, rot_x, row0, row1, row2, vdot; cbn. f_equal; apply v3_eq; cbn; ring. Qed.
Lemma final_euler t phi theta psi : ortho (set_rotation t phi theta psi) /\ determinant (set_rotation t phi theta psi) = 1.
Proof.
  unfold ortho, determinant, set_rotation, row0, row1, row2, vdot; cbn.
  set (a := kDegToRad * phi). set (b := kDegToRad * theta). set (c := kDegToRad * psi).
  pose proof (sc1 a) as Ha. pose proof (sc1 b) as Hb. pose proof (sc1 c) as Hc.
  set (sa := sin a) in *. set (ca := cos a) in *. set (sb := sin b) in *. set (cb := cos b) in *. set (s := sin c) in *. set (k := cos c) in *.
  clearbody sa ca sb cb s k.
  repeat split.
  - transitivity ((s * s + k * k) * (ca * ca + sa * sa * (cb * cb)) + sa * sa * (sb * sb)); [ring|]. rewrite Hc, Hb, Ha. ring.
  - transitivity ((s * s + k * k) * (sa * sa + ca * ca * (cb * cb)) + ca * ca * (sb * sb)); [ring|]. rewrite Hc, Hb, Ha. ring.
  - transitivity ((s * s + k * k) * (sb * sb) + cb * cb); [ring|]. rewrite Hc, Hb. ring.
  - transitivity ((s * s + k * k) * (ca * sa - ca * sa * (cb * cb)) - ca * sa * (sb * sb)); [ring|]. rewrite Hc, Hb. ring.
  - transitivity (- (s * s + k * k) * (cb * sa * sb) + cb * sa * sb); [ring|]. rewrite Hc. ring.
  - transitivity ((s * s + k * k) * (cb * ca * sb) - cb * ca * sb); [ring|]. rewrite Hc. ring.
  - transitivity ((s * s + k * k) * ((sa * sa + ca * ca) * (cb * cb + sb * sb))); [ring|]. rewrite Hc, Hb, Ha. ring.
Qed.
(** The axis constructor for an axis with polar angles [p] (azimuth) and [q]. *)
Definition polar (p q : R) : v3 := V3 (sin q * cos p) (sin q * sin p) (cos q).
Lemma deg_shift p : kDegToRad * (p * (180 / PI) - 90) = p - PI / 2.
Proof. unfold kDegToRad. field. apply PI_neq0. Qed.
Lemma deg_shift' p : kDegToRad * (90 - p * (180 / PI)) = PI / 2 - p.
Proof. unfold kDegToRad. field. apply PI_neq0. Qed.
Lemma deg_id p : kDegToRad * (p * (180 / PI)) = p.
Proof. unfold kDegToRad. field. apply PI_neq0. Qed.
Lemma sin_pi2_minus p : sin (p - PI / 2) = - cos p.
Proof. replace (p - PI / 2) with (- (PI / 2 - p)) by ring. now rewrite sin_neg, sin_shift. Qed.
Lemma cos_pi2_minus p : cos (p - PI / 2) = sin p.
Proof. replace (p - PI / 2) with (- (PI / 2 - p)) by ring. now rewrite cos_neg, cos_shift. Qed.
Lemma set_properties_direction t v : transform_direction (set_properties t) v = transform_direction t v.
Proof. reflexivity. Qed.
Lemma final_axis p q : transform_direction (tr_axis p q true) (polar p q) = V3 0 0 1 /\
  transform_direction (tr_axis p q false) (V3 0 0 1) = polar p q /\ ortho (tr_axis p q true) /\ ortho (tr_axis p q false).
Proof.
  split; [|split; [|split; apply (final_euler _ _ _ _)]].
  - unfold tr_axis. rewrite set_properties_direction, transform_direction_eq. unfold rotate_general, set_rotation, polar; cbn.
    replace (kDegToRad * (- q * (180 / PI))) with (- q) by (rewrite deg_id; reflexivity).
    rewrite deg_shift, Rmult_0_r, sin_0, cos_0, sin_neg, cos_neg, sin_pi2_minus, cos_pi2_minus. pose proof (sc1 p) as Hp. pose proof (sc1 q) as Hq.
    apply v3_eq; cbn; [ring| |].
    + transitivity (sin q * cos q * (sin p * sin p + cos p * cos p) - cos q * sin q); [ring|]. rewrite Hp. ring.
    + transitivity (sin q * sin q * (sin p * sin p + cos p * cos p) + cos q * cos q); [ring|]. rewrite Hp, Hq. ring.
  - unfold tr_axis. rewrite set_properties_direction, transform_direction_eq. unfold rotate_general, set_rotation, polar; cbn.
    rewrite deg_shift', deg_id, sin_shift, cos_shift. apply v3_eq; cbn; ring.
Qed.

(** * C60: DeltaTransformation *)
Definition clear_all (t : trans) : Prop := clear_translation t /\ clear_rotation t.
Lemma fix_zero_clear x : clear_cut x -> fix_zero x = x.
Proof. unfold fix_zero. intros H. destruct (rltb_spec (Rabs x) kTolerance); [|reflexivity]. destruct H as [->|H]; [reflexivity|lra]. Qed.
Lemma fix_zeroes_clear t : clear_all t -> fix_zeroes t = t.
Proof.
  intros ((C0 & C1 & C2) & D0 & D1 & D2 & D3 & D4 & D5 & D6 & D7 & D8). unfold fix_zeroes.
  rewrite !fix_zero_clear by assumption. now destruct t.
Qed.
Lemma fix_zero_near x : Rabs (fix_zero x - x) <= kTolerance.
Proof.
  unfold fix_zero. destruct (rltb_spec (Rabs x) kTolerance).
  - replace (0 - x) with (- x) by ring. rewrite Rabs_Ropp. lra.
  - replace (x - x) with 0 by ring. rewrite Rabs_R0. pose proof kTolerance_pos. lra.
Qed.
Lemma final_delta_index g1 g2 p : ortho g1 -> ortho g2 -> flags_ok g2 ->
  clear_all (inverse g1) -> clear_all (multiply (inverse g1) g2) ->
  transform (delta_index g1 g2) (transform g1 p) = transform g2 p.
Proof.
  intros O1 O2 F2 C1 C2. unfold delta_index. rewrite !fix_zeroes_clear by (rewrite ?fix_zeroes_clear; assumption).
  rewrite multiply_transform by (auto using ortho_inverse_ortho). f_equal.
  rewrite (proj1 (inverse_is_inverse g1 _ O1)). now apply inverse_of_transform.
Qed.
Lemma final_delta_path g1 g2 p : ortho g1 -> ortho g2 ->
  clear_all g2 -> clear_all (inverse g1) -> clear_all (multiply (set_properties (inverse g1)) (set_properties g2)) ->
  transform (delta_path g1 g2) (transform g1 p) = transform g2 p.
Proof.
  intros O1 O2 C2 C1 C3. unfold delta_path.
  assert (fix_zeroes (set_properties (inverse g1)) = set_properties (inverse g1)) as E by (apply fix_zeroes_clear; exact C1).
  rewrite E, fix_zeroes_clear by exact C3.
  destruct (final_general_flags g2 (proj1 C2) (proj2 C2)) as [F S].
  rewrite multiply_transform; [|exact F|exact (ortho_inverse_ortho g1 O1)|exact O2].
  change (transform (set_properties g2) (transform (inverse g1) (transform g1 p)) = transform g2 p).
  change (transform g2 (transform (inverse g1) (transform g1 p)) = transform g2 p). f_equal.
  rewrite (proj1 (inverse_is_inverse g1 _ O1)). now apply inverse_of_transform.
Qed.

(** * C21 *)
Section Scale.
Variable s : v3.
Hypothesis Hs : vx s <> 0 /\ vy s <> 0 /\ vz s <> 0.
Lemma sc_round p : sc_inverse (sc_make s) (sc_transform (sc_make s) p) = p /\ sc_transform (sc_make s) (sc_inverse (sc_make s) p) = p.
Proof. destruct Hs as (A & B & C). unfold sc_inverse, sc_transform, vmul; cbn. split; apply v3_eq; cbn; field; assumption. Qed.
Lemma sc_dist p d t : 0 <= t ->
  vdist (sc_inverse (sc_make s) p) (sc_inverse (sc_make s) (along p d t)) = sc_inverse_distance (sc_make s) t d /\
  vdist (sc_transform (sc_make s) p) (sc_transform (sc_make s) (along p d t)) = sc_distance (sc_make s) t d.
Proof.
  intros Ht. unfold vdist, sc_inverse_distance, sc_distance. split.
  - replace (vsub (sc_inverse (sc_make s) p) (sc_inverse (sc_make s) (along p d t))) with (vscale (- t) (vmul d (sc (sc_make s))))
      by (apply v3_eq; cbn; ring). rewrite vmag_scale, Rabs_Ropp, Rabs_pos_eq by exact Ht. ring.
  - replace (vsub (sc_transform (sc_make s) p) (sc_transform (sc_make s) (along p d t))) with (vscale (- t) (vmul d (isc (sc_make s))))
      by (apply v3_eq; cbn; ring). rewrite vmag_scale, Rabs_Ropp, Rabs_pos_eq by exact Ht. ring.
Qed.
(* scaling every component by a factor of absolute value at least k *)
Lemma vmul_ge k u v : 0 <= k -> k <= Rabs (vx v) -> k <= Rabs (vy v) -> k <= Rabs (vz v) -> vmag u * k <= vmag (vmul u v).
Proof.
  intros Hk H1 H2 H3. apply sqr_le_le; [apply vmag_nonneg|].
  replace (vmag u * k * (vmag u * k)) with (vmag u * vmag u * (k * k)) by ring. rewrite !vmag_sqr. unfold vdot, vmul; cbn.
  assert (forall a, k <= Rabs a -> k * k <= a * a) as K.
  { intros a Ha. replace (a * a) with (Rabs a * Rabs a) by (rewrite <- Rabs_mult; apply Rabs_pos_eq; nra). nra. }
  pose proof (K _ H1). pose proof (K _ H2). pose proof (K _ H3).
  assert (forall x a, k * k <= a * a -> x * x * (k * k) <= x * a * (x * a)) as L by (intros x a Ha; nra).
  pose proof (L (vx u) (vx v) H). pose proof (L (vy u) (vy v) H0). pose proof (L (vz u) (vz v) H4). lra.
Qed.
Lemma rmin3 a b c : 0 <= a -> 0 <= b -> 0 <= c -> let m := Rmin (Rmin a b) c in 0 <= m /\ m <= a /\ m <= b /\ m <= c.
Proof. intros. unfold m, Rmin. destruct (Rle_dec a b); destruct (Rle_dec _ c); lra. Qed.
Lemma sc_safe p q safety :
  (safety <= vdist p q -> sc_safety (sc_make s) safety <= vdist (sc_transform (sc_make s) p) (sc_transform (sc_make s) q)) /\
  (safety <= vdist p q -> sc_inverse_safety (sc_make s) safety <= vdist (sc_inverse (sc_make s) p) (sc_inverse (sc_make s) q)).
Proof.
  split; intros H.
  - unfold sc_safety, vdist. replace (vsub (sc_transform (sc_make s) p) (sc_transform (sc_make s) q)) with (vmul (vsub p q) (isc (sc_make s))) by (apply v3_eq; cbn; ring).
    pose proof (rmin3 (Rabs (1 / vx s)) (Rabs (1 / vy s)) (Rabs (1 / vz s)) (Rabs_pos _) (Rabs_pos _) (Rabs_pos _)) as (M0 & M1 & M2 & M3).
    eapply Rle_trans; [|apply (vmul_ge (sloc (sc_make s))); assumption]. apply Rmult_le_compat_r; assumption.
  - unfold sc_inverse_safety, vdist. replace (vsub (sc_inverse (sc_make s) p) (sc_inverse (sc_make s) q)) with (vmul (vsub p q) (sc (sc_make s))) by (apply v3_eq; cbn; ring).
    pose proof (rmin3 (Rabs (vx s)) (Rabs (vy s)) (Rabs (vz s)) (Rabs_pos _) (Rabs_pos _) (Rabs_pos _)) as (M0 & M1 & M2 & M3).
    eapply Rle_trans; [|apply (vmul_ge (smas (sc_make s))); assumption]. apply Rmult_le_compat_r; assumption.
Qed.
Lemma sc_normals n v : vdot (sc_inverse_normal (sc_make s) n) (sc_inverse (sc_make s) v) = vx s * vy s * vz s * vdot n v /\
  vx s * vy s * vz s * vdot (sc_normal (sc_make s) n) (sc_transform (sc_make s) v) = vdot n v.
Proof. destruct Hs as (A & B & C). unfold vdot, sc_inverse_normal, sc_inverse, sc_normal, sc_transform, vmul; cbn. split; [ring|field; auto]. Qed.
End Scale.
