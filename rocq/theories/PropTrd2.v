(** C84: ray distances of Trds. *)
From Coq Require Import Reals Lra Lia Bool ZArith Psatz.
From stdpp Require Import base list option numbers tactics.
From Verif Require Import Real3 AABBModel BoxModel BoxProofs PlanesModel PlanesSpec PlanesProofs TrapSpec TrdModel TrdSpec TrdProofs TrdProofs2.
From Verif Require PropTrd.
Import stdpp.list.
Local Open Scope R_scope.

Lemma Rdiv_neg_neg a b : a < 0 → b < 0 → 0 < a / b.
Proof. intros Ha Hb. unfold Rdiv. pose proof (Rinv_lt_0_compat b Hb). nra. Qed.
Section Rays.
Variables (inf : R) (k : trd_type) (x1 x2 y1 y2 dz : R).
Hypothesis Hz : 0 < dz.
Hypothesis Hk : k = Trd1 → y1 = y2.
Hypotheses (Hx1 : 0 <= x1) (Hx2 : 0 <= x2) (Hy1 : 0 <= y1) (Hy2 : 0 <= y2).
Let t := trd_struct x1 x2 y1 y2 dz.
Let gx := (x2 - x1) / (2 * dz).
Let gy := (y2 - y1) / (2 * dz).
Let S := frustum x1 x2 y1 y2 dz.
Let C := frustum_core x1 x2 y1 y2 dz.
Let Q := rough x1 x2 y1 y2 dz.
Let X := hX x1 x2 dz. Let Y := hY y1 y2 dz. Let Z := hZ dz. Let T := ttop x1 x2 y1 y2 dz.
Lemma vary_false : check_varying_y k t = false → y1 = y2.
Proof using Hk. intros V. unfold check_varying_y in V. destruct k eqn:K; cbn [has_varying_y] in V; [|auto|done]. apply negb_false_iff in V. unfold reqb in V. destruct (Req_EM_T (td_y1 t) (td_y2 t)) as [E|]; [exact E|done]. Qed.
Lemma vary_true : y1 ≠ y2 ∨ k = Trd2 → check_varying_y k t = true.
Proof using Hk.
  intros H. unfold check_varying_y. destruct k eqn:K; cbn [has_varying_y]; [|destruct H as [H|H]; [exfalso; auto|done]|done]. destruct H as [H|H]; [|done].
  unfold reqb. destruct (Req_EM_T (td_y1 t) (td_y2 t)) as [E|]; [exfalso; by apply H|done].
Qed.
Lemma sx_dist p : (td_hx t - td_fx t * vz p - Rabs (vx p)) * td_cx t = - X p.
Proof using Hz. unfold t. rewrite wx_eq, cx_eq by done. fold gx. pose proof (secant_pos gx). unfold X, hX. fold gx. field. lra. Qed.
Lemma sy_dist p : (td_hy t - td_fy t * vz p - Rabs (vy p)) * td_cy t = - Y p.
Proof using Hz. unfold t. rewrite wy_eq, cy_eq by done. fold gy. pose proof (secant_pos gy). unfold Y, hY. fold gy. field. lra. Qed.
Lemma flat p : y1 = y2 → Y p = Rabs (vy p) - y1.
Proof using Hz. intros E. apply (PropTrd.flat_y _ _ _ Hz E). Qed.
(** The points that DistanceToOut takes for outside. *)
Lemma out_eq p : (rltb (td_z t - Rabs (vz p)) (minus_tolerant true 0) || rltb ((td_hx t - td_fx t * vz p - Rabs (vx p)) * td_cx t) (minus_tolerant true 0) ||
    (if check_varying_y k t then rltb (((if check_varying_y k t then td_hy t - td_fy t * vz p else td_y1 t - Rabs (vy p)) - Rabs (vy p)) * td_cy t) (minus_tolerant true 0)
     else rltb (if check_varying_y k t then td_hy t - td_fy t * vz p else td_y1 t - Rabs (vy p)) (minus_tolerant true 0))) = rgtb (T p) kHalfTolerance.
Proof using Hz Hk.
  rewrite sx_dist. unfold minus_tolerant. replace (0 - kHalfTolerance) with (- kHalfTolerance) by lra. assert (EY : (if check_varying_y k t then rltb (((if check_varying_y k t then td_hy t - td_fy t * vz p else td_y1 t - Rabs (vy p)) - Rabs (vy p)) * td_cy t) (- kHalfTolerance) else rltb (if check_varying_y k t then td_hy t - td_fy t * vz p else td_y1 t - Rabs (vy p)) (- kHalfTolerance)) = rltb (- Y p) (- kHalfTolerance)).
  { destruct (check_varying_y k t) eqn:V; [by rewrite sy_dist|]. rewrite (flat p (vary_false V)). change (td_y1 t) with y1. f_equal. lra. }
  rewrite EY. change (td_z t) with dz. replace (dz - Rabs (vz p)) with (- Z p) by (unfold Z, hZ; lra). pose proof (ttop_le x1 x2 y1 y2 dz p kHalfTolerance) as A. fold T X Y Z in A.
  destruct (rltb_spec (- Z p) (- kHalfTolerance)), (rltb_spec (- X p) (- kHalfTolerance)), (rltb_spec (- Y p) (- kHalfTolerance)), (rgtb_spec (T p) kHalfTolerance); try done; exfalso;
    first [ assert (T p <= kHalfTolerance) by (apply A; lra); lra | assert (T p <= kHalfTolerance) as L by lra; apply A in L; lra ].
Qed.
(** Points that are more than half a tolerance over a face get -1. *)
Theorem C84_to_out_outside p d : (∃ n c, In (n, c) (ramps x1 x2 y1 y2 dz) ∧ kHalfTolerance < height n c p) → trd_to_out k t p d = -1.
Proof using Hz Hk.
  intros (n & c & Hi & H). unfold trd_to_out. cbv zeta. rewrite out_eq. assert (Hn : In (n, c) (halves (tpls x1 x2 y1 y2 dz))) by done. apply in_halves in Hn.
  pose proof (proj1 (ttop_spec x1 x2 y1 y2 dz Hz p) _ Hn) as A. rewrite <- height_dist in A. cbn [pl_n pl_d] in A. fold (T p) in A. destruct (rgtb_spec (T p) kHalfTolerance); [done|lra].
Qed.

Definition leaves_at (p d : v3) (D : R) : Prop := 0 <= D ∧ (∀ u, 0 <= u <= D → S (along p d u)) ∧ ∀ u, D < u → ¬ S (along p d u).
Lemma leaves_of p d D : S p → S (along p d D) → (∀ u, D < u → ¬ S (along p d u)) → leaves_at p d D.
Proof using Hz.
  intros Hp HD Hu. assert (0 <= D). { destruct (Rle_dec 0 D); [done|]. exfalso. apply (Hu 0); [lra|]. by rewrite along_0. }
  split; [done|]. split; [|done]. intros u H1. apply (S_convex x1 x2 y1 y2 dz Hz p d 0 u D); [by rewrite along_0|done|done].
Qed.
Lemma steady_side f m d : steady kAbsorb Q d → vdot (fst (side x1 x2 y1 y2 dz f m)) d = 0 ∨ kAbsorb <= Rabs (vdot (fst (side x1 x2 y1 y2 dz f m)) d).
Proof using. intros H. apply (H _ (snd (side x1 x2 y1 y2 dz f m))). rewrite <- surjective_pairing. apply side_in. Qed.
Lemma steady_z d : steady kAbsorb Q d → vz d = 0 ∨ kAbsorb <= Rabs (vz d).
Proof using. intros H. destruct (H (V3 0 0 1) (- dz)) as [E|E]; [cbn; auto 10| |]; unfold vdot in E; cbn in E; replace (0 * vx d + 0 * vy d + 1 * vz d) with (vz d) in E by ring; auto. Qed.
Lemma lid_out s p d : (s = 1 ∨ s = -1) → S p → 0 < s * vz d → kAbsorb <= Rabs (vz d) → let D := (dz - s * vz p) * (1 / Rabs (plus_tiny (vz d))) in
  Rabs (vx p + D * vx d) <= (if rltb s 0 then x1 else x2) → Rabs (vy p + D * vy d) <= (if rltb s 0 then y1 else y2) → leaves_at p d D.
Proof using Hz.
  cbv zeta. intros Hs Hp Hd Ha. rewrite plus_tiny_steady by done. assert (Ev : Rabs (vz d) = s * vz d) by (destruct Hs as [-> | ->]; [rewrite Rabs_pos_eq; lra|rewrite Rabs_left; lra]). rewrite Ev.
  set (D := (dz - s * vz p) * (1 / (s * vz d))). intros A B. assert (Ez : s * vz (along p d D) = dz) by (cbn; unfold D; replace (s * (vz p + (dz - s * vz p) * (1 / (s * vz d)) * vz d)) with (s * vz p + (dz - s * vz p) * (s * vz d * (1 / (s * vz d)))) by ring; replace (s * vz d * (1 / (s * vz d))) with 1 by (field; destruct Hs as [-> | ->]; lra); ring).
  assert (Es : s * s = 1) by (destruct Hs as [-> | ->]; lra). apply leaves_of; [done| |].
  - apply (lid_hit x1 x2 y1 y2 dz Hz s); [done| |done|done]. replace (vz (along p d D)) with (s * s * vz (along p d D)) by (rewrite Es; ring). rewrite <- Ez. ring.
  - intros u Hu (_ & _ & Hn). assert (dz < s * vz (along p d u)). { cbn in *. nra. } apply abs_two in Hn. destruct Hs as [-> | ->]; lra.
Qed.
(** DistanceToOut from points of the solid, for a direction that goes along each face or away from it by at least 2^-46: the
    distance at which the ray leaves, zero when that is less than half a tolerance.  Without slope in y, and of type
    UniversalTrd or Trd1, only for rays that do not run in the plane of a face. *)
Theorem C84_to_out p d : S p → steady kAbsorb Q d → d ≠ vzero → y1 ≠ y2 ∨ k = Trd2 ∨ ¬ slides Q p d → ∃ D, trd_to_out k t p d = snap D ∧ leaves_at p d D.
Proof using Hz Hk Hx1 Hx2 Hy1 Hy2.
  intros Hp Hst Hd Hsl. unfold trd_to_out. cbv zeta. rewrite out_eq. pose proof kHalfTolerance_pos as Hh. pose proof kAbsorb_pos as Hab. pose proof (proj1 (S_top x1 x2 y1 y2 dz p) Hp) as Ht. fold (T p) in Ht.
  destruct (rgtb_spec (T p) kHalfTolerance) as [|Hnt]; [lra|]. change (td_z t) with dz. change (td_x1 t) with x1. change (td_x2 t) with x2. change (td_y1 t) with y1. change (td_y2 t) with y2.
  assert (SZ : ∀ s, 0 < s * vz d → kAbsorb <= Rabs (vz d)) by (intros s H; destruct (steady_z d Hst) as [E|E]; [rewrite E in H; lra|done]).
  match goal with |- context [if ?c then _ else _] => destruct c eqn:E1 end.
  { apply andb_true_iff in E1 as [E1 E1c]. apply andb_true_iff in E1 as [E1a E1b]. destruct (rgtb_spec (vz d) 0) as [Hv|]; [|done]. apply rleb_true in E1b, E1c. eexists. split; [reflexivity|].
    pose proof (lid_out 1 p d (or_introl eq_refl) Hp) as L. cbv zeta in L. rewrite !Rmult_1_l in L. destruct (rltb_spec 1 0); [lra|]. apply L; try done; try lra. apply (SZ 1). lra. }
  match goal with |- context [if ?c then snap ((vz p + dz) * _) else _] => destruct c eqn:E2 end.
  { apply andb_true_iff in E2 as [E2 E2c]. apply andb_true_iff in E2 as [E2a E2b]. destruct (rltb_spec (vz d) 0) as [Hv|]; [|done]. apply rleb_true in E2b, E2c. eexists. split; [reflexivity|].
    pose proof (lid_out (-1) p d (or_intror eq_refl) Hp) as L. cbv zeta in L. replace (dz - -1 * vz p) with (vz p + dz) in L by lra. destruct (rltb_spec (-1) 0); [|lra]. apply L; try done; try lra. apply (SZ (-1)). lra. }
  assert (Sd : ∀ f m r, face_hit t f m false p d = Some r → ∃ D, snap r = snap D ∧ leaves_at p d D).
  { intros f m r E. destruct (face_hit_sound x1 x2 y1 y2 dz Hz Hx1 Hx2 Hy1 Hy2 f m false p d r (steady_side f m d Hst) E) as (D & -> & _ & A & B). exists D. split; [apply snap_snap|]. by apply leaves_of. }
  destruct (face_hit t false false false p d) as [r|] eqn:F1; [by apply (Sd false false)|]. destruct (face_hit t false true false p d) as [r|] eqn:F2; [by apply (Sd false true)|].
  (* the face through which the ray leaves *)
  assert (Hex : ∃ n c, In (n, c) Q ∧ 0 < vdot n d ∧ let D := - height n c p / vdot n d in S (along p d D) ∧ height n c (along p d D) = 0 ∧ leaves_at p d D).
  { destruct (first_leaving (List.map (λ nc, (height (fst nc) (snd nc) p, vdot (fst nc) d)) Q)) as (a & b & Hi & Hb & H).
    - intros a b Hi. apply in_map_iff in Hi as ([n c] & [= <- <-] & Hi). apply S_rough in Hp; [|done]. by apply (Hp n c).
    - assert (K : ∃ n c, In (n, c) Q ∧ 0 < vdot n d).
      { destruct (Rtotal_order (vz d) 0) as [Hd0|[Hd0|Hd0]]; [exists (V3 0 0 (-1)), (- dz); split; [cbn; auto 10|unfold vdot; cbn; lra]| |exists (V3 0 0 1), (- dz); split; [cbn; auto 10|unfold vdot; cbn; lra]].
        assert (M : ∀ f m : bool, 0 < sgn m (if f then vy d else vx d) → ∃ n c, In (n, c) Q ∧ 0 < vdot n d).
        { intros f m Hm. exists (fst (side x1 x2 y1 y2 dz f m)), (snd (side x1 x2 y1 y2 dz f m)). rewrite <- surjective_pairing. split; [apply side_in|]. unfold side, vdot, sgn in *. destruct f, m; cbn; rewrite Hd0; nra. }
        destruct (Rtotal_order (vx d) 0) as [H1|[H1|H1]]; [apply (M false true); unfold sgn; lra| |apply (M false false); unfold sgn; lra].
        destruct (Rtotal_order (vy d) 0) as [H2|[H2|H2]]; [apply (M true true); unfold sgn; lra| |apply (M true false); unfold sgn; lra].
        exfalso. apply Hd, v3_eq; done. }
      destruct K as (n & c & Hi & Hb). exists (height n c p), (vdot n d). split; [|done]. apply in_map_iff. by exists (n, c).
    - apply in_map_iff in Hi as ([n c] & [= <- <-] & Hi). exists n, c. cbn [fst snd] in *. split; [done|]. split; [done|]. cbv zeta. set (D := - height n c p / vdot n d) in *.
      assert (HS : S (along p d D)). { apply S_rough; [done|]. intros m e Hm. unfold under. rewrite height_along. apply H. apply in_map_iff. by exists (m, e). }
      assert (H0 : height n c (along p d D) = 0) by (rewrite height_along; unfold D; field; lra). split; [done|]. split; [done|]. apply leaves_of; [done|done|]. intros u Hu Hn. apply S_rough in Hn; [|done]. specialize (Hn n c Hi). unfold under in Hn. rewrite height_along in Hn, H0. nra. }
  destruct Hex as (n & c & Hi & Hb & HS & H0 & HL). set (D := - height n c p / vdot n d) in *.
  assert (HD : - kHalfTolerance < D) by (destruct HL; lra).
  assert (Sc : ∀ f m, (n, c) = side x1 x2 y1 y2 dz f m → face_hit t f m false p d = Some (snap D)).
  { intros f m E. assert (En : n = fst (side x1 x2 y1 y2 dz f m)) by (by rewrite <- E). assert (Ec : c = snd (side x1 x2 y1 y2 dz f m)) by (by rewrite <- E). apply (face_hit_complete x1 x2 y1 y2 dz Hz f m false); rewrite <- ?En, <- ?Ec; try done.
    destruct (Hst n c Hi); [lra|done]. }
  (* the lids were tried *)
  assert (NL : n ≠ V3 0 0 1 ∧ n ≠ V3 0 0 (-1) ∨ (n = V3 0 0 1 ∧ c = - dz ∨ n = V3 0 0 (-1) ∧ c = - dz)).
  { cbn in Hi. destruct Hi as [E|[E|[E|[E|[E|[E|[]]]]]]]; injection E as <- <-; [left| left| left| left| right; left; done| right; right; done]; (split; intros [=]; lra). }
  destruct NL as [[NL1 NL2]|NL].
  2: { exfalso. destruct HS as (A & B & G). destruct NL as [[-> ->]|[-> ->]].
    - assert (Hv : 0 < vz d) by (unfold vdot in Hb; cbn in Hb; lra). assert (Ez : vz (along p d D) = dz) by (unfold height in H0; cbn [vx vy vz] in H0; lra). rewrite Ez, width_top in A, B by done.
      assert (ED : (dz - vz p) * (1 / Rabs (plus_tiny (vz d))) = D) by (rewrite plus_tiny_steady by (apply (SZ 1); lra); rewrite Rabs_pos_eq by lra; cbn in Ez; replace (dz - vz p) with (D * vz d) by lra; field; lra).
      rewrite ED in E1. destruct (rgtb_spec (vz d) 0); [|lra]. cbn [andb] in E1. cbn in A, B. destruct (rleb_spec (Rabs (vx p + D * vx d)) x2); [|lra]. destruct (rleb_spec (Rabs (vy p + D * vy d)) y2); [done|lra].
    - assert (Hv : vz d < 0) by (unfold vdot in Hb; cbn in Hb; lra). assert (Ez : vz (along p d D) = - dz) by (unfold height in H0; cbn [vx vy vz] in H0; lra). rewrite Ez, width_low in A, B by done.
      assert (ED : (vz p + dz) * (1 / Rabs (plus_tiny (vz d))) = D) by (rewrite plus_tiny_steady by (apply (SZ (-1)); lra); rewrite Rabs_left by lra; cbn in Ez; replace (vz p + dz) with (D * - vz d) by lra; field; lra).
      rewrite ED in E2. destruct (rltb_spec (vz d) 0); [|lra]. cbn [andb] in E2. cbn in A, B. destruct (rleb_spec (Rabs (vx p + D * vx d)) x1); [|lra]. destruct (rleb_spec (Rabs (vy p + D * vy d)) y1); [done|lra]. }
  assert (Hside : ∃ f m, (n, c) = side x1 x2 y1 y2 dz f m).
  { cbn in Hi. destruct Hi as [E|[E|[E|[E|[E|[E|[]]]]]]]; [exists false, false|exists false, true|exists true, false|exists true, true|exfalso; apply NL1; by injection E|exfalso; apply NL2; by injection E]; symmetry; exact E. }
  destruct Hside as (f & m & Es). specialize (Sc f m Es). destruct f; [|destruct m; congruence].
  destruct (check_varying_y k t) eqn:V.
  - destruct (face_hit t true false false p d) as [r|] eqn:F3; [by apply (Sd true false)|]. destruct (face_hit t true true false p d) as [r|] eqn:F4; [by apply (Sd true true)|]. destruct m; congruence.
  - assert (Ey : y1 = y2) by (by apply vary_false).
    assert (Nsl : ¬ slides Q p d) by (destruct Hsl as [H|[H|H]]; [done|rewrite vary_true in V by auto; done|done]).
    assert (Sy : fst (side x1 x2 y1 y2 dz true m) = V3 0 (if m then - (2 * dz) else 2 * dz) (- (y2 - y1)) ∧ snd (side x1 x2 y1 y2 dz true m) = - (dz * (y1 + y2))) by (destruct m; done).
    assert (En : n = fst (side x1 x2 y1 y2 dz true m)) by (by rewrite <- Es). assert (Ec : c = snd (side x1 x2 y1 y2 dz true m)) by (by rewrite <- Es). clear Es. subst n c. destruct Sy as [Sy1 Sy2]. cbn in Sy1, Sy2.
    assert (Hyd : (if m then vy d < 0 else 0 < vy d)) by (unfold vdot in Hb; destruct m; cbn in Hb; rewrite Ey in Hb; nra).
    assert (EP : (if rltb (vy d) 0 then - y1 else y1) = sgn m y1) by (destruct m; unfold sgn; destruct (rltb_spec (vy d) 0); try lra).
    rewrite EP. assert (ED : (sgn m y1 - vy p) / vy d = D).
    { assert (Hdn : vdot (fst (side x1 x2 y1 y2 dz true m)) d = 2 * dz * sgn m (vy d)) by (unfold vdot; destruct m; unfold sgn; cbn; rewrite Ey; ring). unfold D. rewrite Hdn, side_height by done. rewrite <- Ey, (width_same dz Hz).
      destruct m; unfold sgn; field; lra. }
    rewrite ED. change (vz p + D * vz d) with (vz (along p d D)). change (vx p + D * vx d) with (vx (along p d D)).
    pose proof (wx_eq x1 x2 y1 y2 dz Hz (vz (along p d D))) as WX. fold t in WX. rewrite WX.
    assert (Hn0 : negb (reqb (vy d) 0) = true) by (unfold reqb; destruct (Req_EM_T (vy d) 0) as [E|]; [exfalso; destruct m; lra|done]). rewrite Hn0. cbn [andb].
    (* no other face at the hit, or the ray comes from it *)
    assert (Other : D = 0 ∨ ∀ n' c', In (n', c') Q → height n' c' (along p d D) = 0 → vdot n' d <= 0 → False).
    { destruct (Req_dec D 0) as [|Dn]; [by left|right]. intros n' c' Hi' H0' Hb'. assert (0 < D) by (destruct HL; lra). apply S_rough in Hp; [|done]. pose proof (Hp n' c' Hi') as Hq. unfold under in Hq. rewrite height_along in H0'.
      assert (vdot n' d = 0) by nra. apply Nsl. exists n', c'. split; [done|]. split; nra. }
    destruct Other as [D0|Other]; [exists D; split; [|done]; rewrite D0; match goal with |- context [if ?e then _ else _] => destruct e end; reflexivity|].
    assert (Lx : Rabs (vx (along p d D)) < width dz x1 x2 (vz (along p d D))).
    { pose proof HS as (A & _ & _). destruct (Req_dec (Rabs (vx (along p d D))) (width dz x1 x2 (vz (along p d D)))) as [E|]; [|lra]. exfalso.
      assert (∃ m', height (fst (side x1 x2 y1 y2 dz false m')) (snd (side x1 x2 y1 y2 dz false m')) (along p d D) = 0) as (m' & Hm').
      { unfold Rabs in E. destruct (Rcase_abs (vx (along p d D))); [exists true|exists false]; rewrite side_height by done; unfold sgn; nra. }
      assert (In (fst (side x1 x2 y1 y2 dz false m'), snd (side x1 x2 y1 y2 dz false m')) Q) as Hi' by (rewrite <- surjective_pairing; apply side_in).
      destruct (Rle_dec (vdot (fst (side x1 x2 y1 y2 dz false m')) d) 0) as [L|L]; [by apply (Other _ _ Hi' Hm')|].
      assert (face_hit t false m' false p d = Some (snap D)).
      { apply (face_hit_complete x1 x2 y1 y2 dz Hz false m' false); [destruct (steady_side false m' d Hst); [lra|done]|exact (Rnot_le_lt _ _ L)|exact Hm'|exact HS|exact HD]. }
      destruct m'; congruence. }
    assert (Lz : Rabs (vz (along p d D)) < dz).
    { destruct HS as (A & B & G). destruct (Req_dec (Rabs (vz (along p d D))) dz) as [E|]; [|lra]. exfalso.
      unfold Rabs in E. destruct (Rcase_abs (vz (along p d D))) as [Hc|Hc].
      - destruct (Rle_dec 0 (vz d)) as [L|L]; [apply (Other (V3 0 0 (-1)) (- dz)); [cbn; auto 10|unfold height; cbn [vx vy vz]; lra|unfold vdot; cbn; lra]|].
        assert (Ez : vz (along p d D) = - dz) by lra. rewrite Ez, width_low in A, B by done.
        assert (ED' : (vz p + dz) * (1 / Rabs (plus_tiny (vz d))) = D) by (rewrite plus_tiny_steady by (apply (SZ (-1)); lra); rewrite Rabs_left by lra; cbn in Ez; replace (vz p + dz) with (D * - vz d) by lra; field; lra).
        rewrite ED' in E2. destruct (rltb_spec (vz d) 0); [|lra]. cbn [andb] in E2. cbn in A, B. destruct (rleb_spec (Rabs (vx p + D * vx d)) x1); [|lra]. destruct (rleb_spec (Rabs (vy p + D * vy d)) y1); [done|lra].
      - destruct (Rle_dec (vz d) 0) as [L|L]; [apply (Other (V3 0 0 1) (- dz)); [cbn; auto 10|unfold height; cbn [vx vy vz]; lra|unfold vdot; cbn; lra]|].
        assert (Ez : vz (along p d D) = dz) by lra. rewrite Ez, width_top in A, B by done.
        assert (ED' : (dz - vz p) * (1 / Rabs (plus_tiny (vz d))) = D) by (rewrite plus_tiny_steady by (apply (SZ 1); lra); rewrite Rabs_pos_eq by lra; cbn in Ez; replace (dz - vz p) with (D * vz d) by lra; field; lra).
        rewrite ED' in E1. destruct (rgtb_spec (vz d) 0); [|lra]. cbn [andb] in E1. cbn in A, B. destruct (rleb_spec (Rabs (vx p + D * vx d)) x2); [|lra]. destruct (rleb_spec (Rabs (vy p + D * vy d)) y2); [done|lra]. }
    apply rltb_true in Lx, Lz. rewrite Lx, Lz. exists D. done.
Qed.
(** DistanceToIn. *)
Definition enters_at (p d : v3) (D : R) : Prop := - kHalfTolerance < D ∧ S (along p d D) ∧ ∀ u, u < D → ¬ S (along p d u).
Let rect : bool := check_varying_y k t.
Lemma inx_eq p : rgtb ((td_hx t - td_fx t * vz p - Rabs (vx p)) * td_cx t) (plus_tolerant true 0) = rltb (X p) (- kHalfTolerance).
Proof using Hz. rewrite sx_dist. unfold plus_tolerant. destruct (rgtb_spec (- X p) (0 + kHalfTolerance)), (rltb_spec (X p) (- kHalfTolerance)); lra || done. Qed.
Lemma iny_eq p : (if rect then rgtb (((if rect then td_hy t - td_fy t * vz p else Rabs (vy p) - td_y1 t) - Rabs (vy p)) * td_cy t) (plus_tolerant true 0)
    else rltb (if rect then td_hy t - td_fy t * vz p else Rabs (vy p) - td_y1 t) (minus_tolerant true 0)) = rltb (Y p) (- kHalfTolerance).
Proof using Hz Hk.
  destruct rect eqn:V; [rewrite sy_dist; unfold plus_tolerant; destruct (rgtb_spec (- Y p) (0 + kHalfTolerance)), (rltb_spec (Y p) (- kHalfTolerance)); lra || done|].
  rewrite (flat p (vary_false V)). unfold minus_tolerant. change (td_y1 t) with y1. f_equal. lra.
Qed.
Lemma inz_eq p : rltb (Rabs (vz p)) (minus_tolerant true (td_z t)) = rltb (Z p) (- kHalfTolerance).
Proof using. unfold minus_tolerant, Z, hZ. change (td_z t) with dz. destruct (rltb_spec (Rabs (vz p)) (dz - kHalfTolerance)), (rltb_spec (Rabs (vz p) - dz) (- kHalfTolerance)); lra || done. Qed.
Lemma in_eq p : rltb (X p) (- kHalfTolerance) && rltb (Y p) (- kHalfTolerance) && rltb (Z p) (- kHalfTolerance) = rltb (T p) (- kHalfTolerance).
Proof using.
  pose proof (ttop_lt x1 x2 y1 y2 dz p (- kHalfTolerance)) as A. fold T X Y Z in A.
  destruct (rltb_spec (X p) (- kHalfTolerance)), (rltb_spec (Y p) (- kHalfTolerance)), (rltb_spec (Z p) (- kHalfTolerance)), (rltb_spec (T p) (- kHalfTolerance)); try done; exfalso;
    first [ assert (T p < - kHalfTolerance) by (apply A; lra); lra | assert (T p < - kHalfTolerance) as L by lra; apply A in L; lra ].
Qed.
Lemma snap_id r : kHalfTolerance <= Rabs r → snap r = r.
Proof using. intros H. unfold snap. destruct (rltb_spec (Rabs r) kHalfTolerance); [lra|done]. Qed.
(** -1 from the points more than half a tolerance under every face. *)
Theorem C84_to_in_inside p d : (∀ n c, In (n, c) (ramps x1 x2 y1 y2 dz) → height n c p < - kHalfTolerance) → trd_to_in inf k t p d = -1.
Proof using Hz Hk.
  intros H. assert (HT : T p < - kHalfTolerance).
  { destruct (proj2 (ttop_spec x1 x2 y1 y2 dz Hz p)) as (pl & Hi & E). fold (T p) in E. rewrite <- E, <- height_dist. apply (H (pl_n pl) (pl_d pl)). change (ramps x1 x2 y1 y2 dz) with (halves (tpls x1 x2 y1 y2 dz)). apply in_halves. by destruct pl. }
  unfold trd_to_in. cbv zeta. fold rect. rewrite inx_eq, inz_eq, iny_eq, in_eq. destruct (rltb_spec (T p) (- kHalfTolerance)); [|lra]. cbn [orb].
  assert (HZ : rltb (Z p) (- kHalfTolerance) = true) by (apply rltb_true; apply (ttop_lt x1 x2 y1 y2 dz p (- kHalfTolerance)); done). rewrite HZ, andb_false_r. cbn [negb andb]. apply snap_id. rewrite Rabs_left by lra. unfold kHalfTolerance, kTolerance. lra.
Qed.
Lemma lid_in s p d : (s = 1 ∨ s = -1) → dz <= s * vz p → s * vz d < 0 → let D := (Rabs (vz p) - dz) / Rabs (vz d) in
  Rabs (vx p + D * vx d) <= (if rltb s 0 then x1 else x2) → Rabs (vy p + D * vy d) <= (if rltb s 0 then y1 else y2) → enters_at p d D.
Proof using Hz.
  cbv zeta. intros Hs Hp Hd. assert (Ep : Rabs (vz p) = s * vz p) by (destruct Hs as [-> | ->]; [rewrite Rabs_pos_eq; lra|rewrite Rabs_left; lra]). assert (Ev : Rabs (vz d) = - (s * vz d)) by (destruct Hs as [-> | ->]; [rewrite Rabs_left; lra|rewrite Rabs_pos_eq; lra]). rewrite Ep, Ev.
  set (D := (s * vz p - dz) / - (s * vz d)). intros A B. assert (Ez : s * vz (along p d D) = dz) by (cbn; unfold D; field; destruct Hs as [-> | ->]; lra).
  assert (Es : s * s = 1) by (destruct Hs as [-> | ->]; lra). assert (0 <= D) by (apply div_nonneg; lra). pose proof kHalfTolerance_pos. split; [lra|]. split.
  - apply (lid_hit x1 x2 y1 y2 dz Hz s); [done| |done|done]. replace (vz (along p d D)) with (s * s * vz (along p d D)) by (rewrite Es; ring). rewrite <- Ez. ring.
  - intros u Hu (_ & _ & Hn). assert (dz < s * vz (along p d u)). { cbn in *. nra. } apply abs_two in Hn. destruct Hs as [-> | ->]; lra.
Qed.
(** Otherwise, from points that are not between half a tolerance under a lid and the lid: either the distance to the place
    where the ray enters, zero when that is less than half a tolerance (it may lie up to half a tolerance behind the point),
    or infinity, and from outside that only when the ray never meets the solid; for a UniversalTrd or Trd1 without slope in
    y, only when the ray never meets the open solid. *)
Theorem C84_to_in p d : kHalfTolerance <= inf → kHalfTolerance < dz → steady kAbsorb Q d → dz <= Rabs (vz p) ∨ Rabs (vz p) <= dz - kHalfTolerance →
  (∃ n c, In (n, c) (ramps x1 x2 y1 y2 dz) ∧ - kHalfTolerance <= height n c p) →
  (∃ D, trd_to_in inf k t p d = snap D ∧ enters_at p d D) ∨
  trd_to_in inf k t p d = inf ∧ (¬ S p → ∀ u, 0 <= u → if check_varying_y k t then ¬ S (along p d u) else ¬ C (along p d u)).
Proof using Hz Hk Hx1 Hx2 Hy1 Hy2.
  intros Hinf Hdz Hst Hlid (n0 & c0 & Hi0 & H0). pose proof kHalfTolerance_pos as Hh. pose proof kAbsorb_pos as Hab.
  assert (HT : - kHalfTolerance <= T p).
  { assert (Hn : In (n0, c0) (halves (tpls x1 x2 y1 y2 dz))) by done. apply in_halves in Hn. pose proof (proj1 (ttop_spec x1 x2 y1 y2 dz Hz p) _ Hn) as A. rewrite <- height_dist in A. cbn [pl_n pl_d] in A. fold (T p) in A. lra. }
  unfold trd_to_in. cbv zeta. fold rect. rewrite inx_eq, inz_eq, iny_eq, in_eq. destruct (rltb_spec (T p) (- kHalfTolerance)) as [|_]; [lra|]. cbn [orb].
  change (td_z t) with dz. change (td_x1 t) with x1. change (td_x2 t) with x2. change (td_y1 t) with y1. change (td_y2 t) with y2.
  set (Dz := (Rabs (vz p) - dz) / Rabs (vz d)).
  match goal with |- context [if ?c then snap (if ?c then _ else _) else _] => set (okz := c) end.
  assert (Zok : okz = true → enters_at p d Dz).
  { unfold okz. intros E. apply andb_true_iff in E as [E E3]. apply andb_true_iff in E as [E1 E2]. apply rltb_true in E1. apply negb_true_iff, rltb_false in E2. unfold Z, hZ in E2.
    apply orb_true_iff in E3 as [E3|E3]; apply andb_true_iff in E3 as [E3 E5]; apply andb_true_iff in E3 as [E3 E4]; apply rleb_true in E4, E5.
    - destruct (rgtb_spec (vz p) (dz - kHalfTolerance)) as [G|]; [|done]. assert (vz d < 0) by nra. assert (dz <= vz p). { rewrite Rabs_pos_eq in Hlid by lra. lra. }
      apply (lid_in 1); [by left|lra|lra| |]; destruct (rltb_spec 1 0); try lra; fold Dz; done.
    - apply rltb_true in E3. assert (0 < vz d) by nra. assert (vz p <= - dz). { rewrite Rabs_left in Hlid by lra. lra. }
      apply (lid_in (-1)); [by right|lra|lra| |]; destruct (rltb_spec (-1) 0); try lra; fold Dz; done. }
  assert (Zco : ∀ s D, (s = 1 ∨ s = -1) → dz <= s * vz p → s * vz d < 0 → s * vz (along p d D) = dz → S (along p d D) → okz = true).
  { intros s D Hs Hp Hd E (A & B & _). assert (Ep : Rabs (vz p) = s * vz p) by (destruct Hs as [-> | ->]; [rewrite Rabs_pos_eq; lra|rewrite Rabs_left; lra]). assert (Ev : Rabs (vz d) = - (s * vz d)) by (destruct Hs as [-> | ->]; [rewrite Rabs_left; lra|rewrite Rabs_pos_eq; lra]).
    assert (ED : Dz = D). { unfold Dz. rewrite Ep, Ev. cbn in E. replace (s * vz p - dz) with (- (D * (s * vz d))) by lra. field. destruct Hs as [-> | ->]; lra. }
    unfold okz. rewrite ED. assert (E1 : rltb (vz p * vz d) 0 = true) by (apply rltb_true; destruct Hs as [-> | ->]; nra). assert (E2 : rltb (Z p) (- kHalfTolerance) = false) by (apply rltb_false; unfold Z, hZ; lra). rewrite E1, E2. cbn [negb andb].
    cbn in A, B, E. destruct Hs as [-> | ->].
    - replace (vz p + D * vz d) with dz in A, B by lra. rewrite width_top in A, B by done. destruct (rgtb_spec (vz p) (dz - kHalfTolerance)); [|lra]. destruct (rleb_spec (Rabs (vx p + D * vx d)) x2); [|lra]. destruct (rleb_spec (Rabs (vy p + D * vy d)) y2); [done|lra].
    - replace (vz p + D * vz d) with (- dz) in A, B by lra. rewrite width_low in A, B by done. apply orb_true_iff. right. destruct (rltb_spec (vz p) (- dz + kHalfTolerance)); [|lra]. destruct (rleb_spec (Rabs (vx p + D * vx d)) x1); [|lra]. destruct (rleb_spec (Rabs (vy p + D * vy d)) y1); [done|lra]. }
  destruct okz eqn:Ez; [left; exists Dz; auto|]. clear Zok.
  assert (Sd : ∀ f m r, face_hit t f m true p d = Some r → ∃ D, snap r = snap D ∧ enters_at p d D).
  { intros f m r E. destruct (face_hit_sound x1 x2 y1 y2 dz Hz Hx1 Hx2 Hy1 Hy2 f m true p d r (steady_side f m d Hst) E) as (D & -> & A & B & G). exists D. split; [apply snap_snap|done]. }
  set (h0 := if rltb (X p) (- kHalfTolerance) then None else face_hit t false false true p d). set (h1 := if rltb (X p) (- kHalfTolerance) then None else face_hit t false true true p d).
  assert (S0 : ∀ r, h0 = Some r → ∃ D, snap r = snap D ∧ enters_at p d D) by (intros r E; unfold h0 in E; destruct (rltb (X p) (- kHalfTolerance)); [discriminate|exact (Sd false false r E)]).
  assert (S1 : ∀ r, h1 = Some r → ∃ D, snap r = snap D ∧ enters_at p d D) by (intros r E; unfold h1 in E; destruct (rltb (X p) (- kHalfTolerance)); [discriminate|exact (Sd false true r E)]).
  (* the y part of the code *)
  set (hy := if rltb (Y p) (- kHalfTolerance) then None else if rect then match face_hit t true true true p d with Some r => Some r | None => face_hit t true false true p d end else
    if rltb (vy p * vy d) 0 && rgtb ((if rect then td_hy t - td_fy t * vz p else Rabs (vy p) - y1) / Rabs (vy d)) (- kHalfTolerance) &&
       rltb (Rabs (vx p + (if rect then td_hy t - td_fy t * vz p else Rabs (vy p) - y1) / Rabs (vy d) * vx d)) (td_hx t - td_fx t * (vz p + (if rect then td_hy t - td_fy t * vz p else Rabs (vy p) - y1) / Rabs (vy d) * vz d)) &&
       rltb (Rabs (vz p + (if rect then td_hy t - td_fy t * vz p else Rabs (vy p) - y1) / Rabs (vy d) * vz d)) dz then Some ((if rect then td_hy t - td_fy t * vz p else Rabs (vy p) - y1) / Rabs (vy d)) else None).
  assert (Sy : ∀ r, hy = Some r → ∃ D, snap r = snap D ∧ enters_at p d D).
  { intros r E. unfold hy in E. destruct (rltb (Y p) _); [done|]. destruct rect eqn:V.
    { destruct (face_hit t true true true p d) eqn:F; [injection E as <-; eauto|eauto]. }
    match type of E with (if ?c then _ else _) = _ => destruct c eqn:Ec end; [|done]. injection E as <-. set (D := (Rabs (vy p) - y1) / Rabs (vy d)) in *. exists D. split; [done|].
    apply andb_true_iff in Ec as [Ec E4]. apply andb_true_iff in Ec as [Ec E3]. apply andb_true_iff in Ec as [E1 E2]. apply rltb_true in E1, E3, E4. destruct (rgtb_spec D (- kHalfTolerance)) as [G|]; [|done]. clear E2.
    assert (Ey : y1 = y2) by (by apply vary_false). unfold t in E3. rewrite wx_eq in E3 by done. assert (Hd0 : vy d ≠ 0) by (intros E; rewrite E in E1; lra). pose proof (Rabs_pos_lt _ Hd0) as Hp0.
    assert (K : Rabs (vy d) * D = Rabs (vy p) - y1) by (unfold D; field; lra).
    assert (Lin : ∀ u, 0 <= Rabs (vy p) - u * Rabs (vy d) → Rabs (vy p + u * vy d) = Rabs (vy p) - u * Rabs (vy d)).
    { intros u. unfold Rabs at 1 2 4 5. destruct (Rcase_abs (vy p)), (Rcase_abs (vy d)); try nra; intros Hu; [rewrite Rabs_left1 by lra; lra|rewrite Rabs_pos_eq by lra; lra]. }
    split; [lra|]. split.
    - unfold S, frustum. cbn [along vadd vscale vx vy vz]. rewrite <- Ey, (width_same dz Hz), (Lin D) by lra. lra.
    - intros u Hu (_ & B & _). rewrite <- Ey, (width_same dz Hz) in B. cbn in B. rewrite (Lin u) in B; [|nra]. nra. }
  assert (Eq : ∀ dist, (if rltb (Y p) (- kHalfTolerance) then dist else if rect then default (default dist (face_hit t true false true p d)) (face_hit t true true true p d) else
     if rltb (vy p * vy d) 0 && rgtb ((if rect then td_hy t - td_fy t * vz p else Rabs (vy p) - y1) / Rabs (vy d)) (- kHalfTolerance) &&
       rltb (Rabs (vx p + (if rect then td_hy t - td_fy t * vz p else Rabs (vy p) - y1) / Rabs (vy d) * vx d)) (td_hx t - td_fx t * (vz p + (if rect then td_hy t - td_fy t * vz p else Rabs (vy p) - y1) / Rabs (vy d) * vz d)) &&
       rltb (Rabs (vz p + (if rect then td_hy t - td_fy t * vz p else Rabs (vy p) - y1) / Rabs (vy d) * vz d)) dz then (if rect then td_hy t - td_fy t * vz p else Rabs (vy p) - y1) / Rabs (vy d) else dist) = default dist hy).
  { intros dist. unfold hy. destruct (rltb (Y p) _); [done|]. destruct rect; [by destruct (face_hit t true true true p d), (face_hit t true false true p d)|]. match goal with |- (if ?e then _ else _) = _ => destruct e end; reflexivity. }
  rewrite Eq. destruct h1 as [r1|] eqn:E1; [left; by apply S1|]. cbn [default from_option]. destruct hy as [ry|] eqn:Eh; cbn [default from_option]; [left; by apply Sy|]. destruct h0 as [r0|] eqn:E0; cbn [default from_option]; [left; by apply S0|].
  right. split; [apply snap_id; rewrite Rabs_pos_eq; lra|]. intros Hp u Hu.
  assert (HT0 : 0 < T p) by (destruct (Rlt_dec 0 (T p)); [done|]; exfalso; apply Hp, S_top; fold (T p); lra).
  (* the last face through which a ray that meets the solid comes *)
  assert (Hin : S (along p d u) → ∃ n c, In (n, c) Q ∧ 0 < height n c p ∧ vdot n d < 0 ∧ let D := - height n c p / vdot n d in 0 < D <= u ∧ S (along p d D) ∧ height n c (along p d D) = 0).
  { intros Hu1. destruct (last_entering (List.map (λ nc, (height (fst nc) (snd nc) p, vdot (fst nc) d)) Q) u Hu) as (a & b & Hi & Ha & Hb & HD & H).
    - intros a b Hi. apply in_map_iff in Hi as ([n c] & [= <- <-] & Hi). apply S_rough in Hu1; [|done]. specialize (Hu1 n c Hi). unfold under in Hu1. rewrite height_along in Hu1. cbn [fst snd]. lra.
    - destruct (List.Exists_dec (λ nc : v3 * R, 0 < height (fst nc) (snd nc) p) Q (λ nc, Rlt_dec 0 _)) as [He|He].
      + apply List.Exists_exists in He as ([n c] & Hi & Ha). exists (height n c p), (vdot n d). split; [|done]. apply in_map_iff. by exists (n, c).
      + exfalso. apply Hp, S_rough; [done|]. intros n c Hi. unfold under. destruct (Rle_dec (height n c p) 0); [done|]. exfalso. apply He, List.Exists_exists. exists (n, c). split; [done|cbn; lra].
    - apply in_map_iff in Hi as ([n c] & [= <- <-] & Hi). cbn [fst snd] in *. exists n, c. split; [done|]. split; [done|]. split; [done|]. cbv zeta. set (D := - height n c p / vdot n d) in *.
      split; [split; [|done]|split].
      + unfold D. apply Rdiv_neg_neg; lra.
      + apply S_rough; [done|]. intros m e Hm. unfold under. rewrite height_along. apply H. apply in_map_iff. by exists (m, e).
      + rewrite height_along. unfold D. field. lra. }
  (* the sides and lids were tried *)
  assert (Nx : ∀ m D, 0 < D → vdot (fst (side x1 x2 y1 y2 dz false m)) d < 0 → height (fst (side x1 x2 y1 y2 dz false m)) (snd (side x1 x2 y1 y2 dz false m)) (along p d D) = 0 → S (along p d D) → False).
  { intros m D HD Hb Hh0 HS. assert (Hpos : 0 < height (fst (side x1 x2 y1 y2 dz false m)) (snd (side x1 x2 y1 y2 dz false m)) p) by (rewrite height_along in Hh0; nra).
    assert (HX : rltb (X p) (- kHalfTolerance) = false).
    { apply rltb_false. rewrite side_height in Hpos by done. assert (0 < sgn m (vx p) - width dz x1 x2 (vz p)) by nra. assert (width dz x1 x2 (vz p) < Rabs (vx p)) by (destruct m; unfold sgn in *; [pose proof (Rle_abs (- vx p)); rewrite Rabs_Ropp in *; lra|pose proof (Rle_abs (vx p)); lra]).
      unfold X, hX. pose proof (secant_pos gx). fold gx. pose proof (div_nonneg (Rabs (vx p) - width dz x1 x2 (vz p)) (secant gx)). lra. }
    assert (F : face_hit t false m true p d = Some (snap D)). { apply (face_hit_complete x1 x2 y1 y2 dz Hz false m true); [destruct (steady_side false m d Hst); [lra|done]|exact Hb|exact Hh0|exact HS|lra]. }
    unfold h0, h1 in E0, E1. rewrite HX in E0, E1. destruct m; congruence. }
  assert (Nz : ∀ s D, (s = 1 ∨ s = -1) → 0 < D → s * vz d < 0 → s * vz (along p d D) = dz → S (along p d D) → False).
  { intros s D Hs HD Hv E HS. assert (false = true); [|done]. apply (Zco s D); try done. cbn in E. nra. }
  destruct rect eqn:V.
  - intros Hn. destruct (Hin Hn) as (n & c & Hi & Ha & Hb & HD & HS & Hh0). set (D := - height n c p / vdot n d) in *.
    assert (Ny : ∀ m, (n, c) = side x1 x2 y1 y2 dz true m → False).
    { intros m E. assert (En : n = fst (side x1 x2 y1 y2 dz true m)) by (by rewrite <- E). assert (Ec : c = snd (side x1 x2 y1 y2 dz true m)) by (by rewrite <- E).
      assert (HY : rltb (Y p) (- kHalfTolerance) = false).
      { apply rltb_false. rewrite En, Ec, side_height in Ha by done. assert (0 < sgn m (vy p) - width dz y1 y2 (vz p)) by nra. assert (width dz y1 y2 (vz p) < Rabs (vy p)) by (destruct m; unfold sgn in *; [pose proof (Rle_abs (- vy p)); rewrite Rabs_Ropp in *; lra|pose proof (Rle_abs (vy p)); lra]).
        unfold Y, hY. pose proof (secant_pos gy). fold gy. pose proof (div_nonneg (Rabs (vy p) - width dz y1 y2 (vz p)) (secant gy)). lra. }
      assert (F : face_hit t true m true p d = Some (snap D)). { apply (face_hit_complete x1 x2 y1 y2 dz Hz true m true); rewrite <- ?En, <- ?Ec; [destruct (Hst n c Hi); [lra|done]|exact Hb|exact Hh0|exact HS|lra]. }
      unfold hy in Eh. rewrite HY in Eh. destruct m; [rewrite F in Eh; done|]. destruct (face_hit t true true true p d); congruence. }
    cbn in Hi. destruct Hi as [E|[E|[E|[E|[E|[E|[]]]]]]].
    + apply (Nx false D); [lra| | |done]; [exact (@eq_ind_r _ (n, c) (λ q : v3 * R, vdot (fst q) d < 0) Hb _ E)|exact (@eq_ind_r _ (n, c) (λ q : v3 * R, height (fst q) (snd q) (along p d D) = 0) Hh0 _ E)].
    + apply (Nx true D); [lra| | |done]; [exact (@eq_ind_r _ (n, c) (λ q : v3 * R, vdot (fst q) d < 0) Hb _ E)|exact (@eq_ind_r _ (n, c) (λ q : v3 * R, height (fst q) (snd q) (along p d D) = 0) Hh0 _ E)].
    + by apply (Ny false).
    + by apply (Ny true).
    + injection E as <- <-. apply (Nz 1 D); [by left|lra| | |done]; [unfold vdot in Hb; cbn in Hb; lra|unfold height in Hh0; cbn [vx vy vz] in Hh0; lra].
    + injection E as <- <-. apply (Nz (-1) D); [by right|lra| | |done]; [unfold vdot in Hb; cbn in Hb; lra|unfold height in Hh0; cbn [vx vy vz] in Hh0; lra].
  - intros (C1 & C2 & C3). assert (Hn : S (along p d u)) by (unfold S, frustum; lra). destruct (Hin Hn) as (n & c & Hi & Ha & Hb & HD & HS & Hh0). set (D := - height n c p / vdot n d) in *.
    assert (Ey : y1 = y2) by (by apply vary_false).
    assert (Lx : Rabs (vx (along p d D)) < width dz x1 x2 (vz (along p d D))).
    { pose proof HS as (A & _ & _). destruct (Req_dec (Rabs (vx (along p d D))) (width dz x1 x2 (vz (along p d D)))) as [E|]; [|lra]. exfalso.
      assert (∃ m', height (fst (side x1 x2 y1 y2 dz false m')) (snd (side x1 x2 y1 y2 dz false m')) (along p d D) = 0) as (m' & Hm').
      { unfold Rabs in E. destruct (Rcase_abs (vx (along p d D))); [exists true|exists false]; rewrite side_height by done; unfold sgn; nra. }
      apply (Nx m' D); [lra| |done|done]. assert (Hneg : height (fst (side x1 x2 y1 y2 dz false m')) (snd (side x1 x2 y1 y2 dz false m')) (along p d u) < 0).
      { rewrite side_height by done. assert (sgn m' (vx (along p d u)) < width dz x1 x2 (vz (along p d u))) by (apply abs_lt in C1; destruct m'; unfold sgn; lra). nra. }
      rewrite height_along in Hm', Hneg. assert (D ≠ u) by (intros E'; rewrite E' in Hm'; lra). nra. }
    assert (Lz : Rabs (vz (along p d D)) < dz).
    { pose proof HS as (_ & _ & A). destruct (Req_dec (Rabs (vz (along p d D))) dz) as [E|]; [|lra]. exfalso. apply abs_lt in C3. cbn in C3.
      unfold Rabs in E. destruct (Rcase_abs (vz (along p d D))); cbn in E.
      - apply (Nz (-1) D); [by right|lra| |cbn; lra|done]. assert (D ≠ u) by (intros E'; rewrite E' in E; lra). nra.
      - apply (Nz 1 D); [by left|lra| |cbn; lra|done]. assert (D ≠ u) by (intros E'; rewrite E' in E; lra). nra. }
    assert (Ny : ∀ m, (n, c) = side x1 x2 y1 y2 dz true m → False).
    { intros m E. assert (En : n = fst (side x1 x2 y1 y2 dz true m)) by (by rewrite <- E). assert (Ec : c = snd (side x1 x2 y1 y2 dz true m)) by (by rewrite <- E).
      assert (Hdn : vdot n d = 2 * dz * sgn m (vy d)) by (rewrite En; unfold vdot; destruct m; unfold sgn; cbn; rewrite Ey; ring).
      assert (Ehp : height n c p = 2 * dz * (sgn m (vy p) - y1)) by (rewrite En, Ec, side_height by done; rewrite <- Ey, (width_same dz Hz); done).
      assert (Hm1 : y1 < sgn m (vy p)) by (rewrite Ehp in Ha; nra). assert (Hm2 : sgn m (vy d) < 0) by (rewrite Hdn in Hb; nra).
      assert (A1 : Rabs (vy p) = sgn m (vy p)) by (destruct m; unfold sgn in *; [rewrite Rabs_left; lra|rewrite Rabs_pos_eq; lra]). assert (A2 : Rabs (vy d) = - sgn m (vy d)) by (destruct m; unfold sgn in *; [rewrite Rabs_pos_eq; lra|rewrite Rabs_left; lra]).
      assert (ED : (Rabs (vy p) - y1) / Rabs (vy d) = D) by (unfold D; rewrite A1, A2, Hdn, Ehp; field; lra).
      assert (HY : rltb (Y p) (- kHalfTolerance) = false) by (apply rltb_false; rewrite (flat p Ey); lra).
      unfold hy in Eh. rewrite HY, ED in Eh. unfold t in Eh. rewrite wx_eq in Eh by done. change (vz p + D * vz d) with (vz (along p d D)) in Eh. change (vx p + D * vx d) with (vx (along p d D)) in Eh.
      apply rltb_true in Lx, Lz. rewrite Lx, Lz in Eh. destruct (rltb_spec (vy p * vy d) 0) as [|Hn0]; [|apply Hn0; destruct m; unfold sgn in *; nra]. destruct (rgtb_spec D (- kHalfTolerance)); [done|lra]. }
    cbn in Hi. destruct Hi as [E|[E|[E|[E|[E|[E|[]]]]]]].
    + apply (Nx false D); [lra| | |done]; [exact (@eq_ind_r _ (n, c) (λ q : v3 * R, vdot (fst q) d < 0) Hb _ E)|exact (@eq_ind_r _ (n, c) (λ q : v3 * R, height (fst q) (snd q) (along p d D) = 0) Hh0 _ E)].
    + apply (Nx true D); [lra| | |done]; [exact (@eq_ind_r _ (n, c) (λ q : v3 * R, vdot (fst q) d < 0) Hb _ E)|exact (@eq_ind_r _ (n, c) (λ q : v3 * R, height (fst q) (snd q) (along p d D) = 0) Hh0 _ E)].
    + by apply (Ny false).
    + by apply (Ny true).
    + injection E as <- <-. apply (Nz 1 D); [by left|lra| | |done]; [unfold vdot in Hb; cbn in Hb; lra|unfold height in Hh0; cbn [vx vy vz] in Hh0; lra].
    + injection E as <- <-. apply (Nz (-1) D); [by right|lra| | |done]; [unfold vdot in Hb; cbn in Hb; lra|unfold height in Hh0; cbn [vx vy vz] in Hh0; lra].
Qed.
End Rays.
Print Assumptions C84_to_out_outside.
Print Assumptions C84_to_out.
Print Assumptions C84_to_in_inside.
Print Assumptions C84_to_in.

(** A direction of length one with a small slope. *)
Definition low_dir : v3 := V3 (3999999999999999999 / 4000000000000000001) 0 (- (4000000000 / 4000000000000000001)).
Lemma abs_is a r : 0 <= r → a = r ∨ a = - r → Rabs a = r.
Proof. intros Hr [-> | ->]; [by apply Rabs_pos_eq|rewrite Rabs_Ropp; by apply Rabs_pos_eq]. Qed.
Lemma low_steady : steady kAbsorb (rough 1 1 1 1 1) low_dir.
Proof.
  assert (K : kAbsorb <= / 1000000000000) by (unfold kAbsorb; apply Rinv_le_contravar; lra).
  intros n c Hi. cbn in Hi. destruct Hi as [E|[E|[E|[E|[E|[E|[]]]]]]]; injection E as <- <-; unfold vdot, low_dir; cbn [vx vy vz]; [right|right|left|left|right|right]; try lra;
  [rewrite (abs_is _ (2 * (3999999999999999999 / 4000000000000000001)))|rewrite (abs_is _ (2 * (3999999999999999999 / 4000000000000000001)))|rewrite (abs_is _ (4000000000 / 4000000000000000001))|rewrite (abs_is _ (4000000000 / 4000000000000000001))]; lra.
Qed.
(** DistanceToIn gives a negative distance from points outside, less than half a tolerance lower than the plane of a lid, on
    rays that leave the solid behind them: the test of the lids takes such points for points beyond the lid. *)
Theorem C84_to_in_sign_refuted : ¬ ∀ inf k x1 x2 y1 y2 dz p d, kHalfTolerance <= inf → 0 < x1 → 0 < x2 → 0 < y1 → 0 < y2 → kHalfTolerance < dz → (k = Trd1 → y1 = y2) →
  vmag d = 1 → steady kAbsorb (rough x1 x2 y1 y2 dz) d → (∀ u, 0 <= u → ¬ frustum x1 x2 y1 y2 dz (along p d u)) → trd_to_in inf k (trd_struct x1 x2 y1 y2 dz) p d = inf.
Proof.
  intros H. assert (Hh : kHalfTolerance = 5 / 10000000000) by (unfold kHalfTolerance, kTolerance; lra). pose (p := V3 (6 / 5) 0 (1 - 1 / 4000000000)).
  assert (F : trd_to_in 1 UniversalTrd (trd_struct 1 1 1 1 1) p low_dir = 1).
  { apply H; try lra; try done; [|exact low_steady|].
    - unfold vmag. replace (vdot low_dir low_dir) with 1; [apply R_sqrt.sqrt_1|unfold vdot, low_dir; cbn; field].
    - intros u Hu (A & _ & _). rewrite width_same in A by lra. apply abs_two in A. cbn in A. lra. }
  revert F. unfold trd_to_in. cbv zeta. cbn [p low_dir vx vy vz]. change (td_z (trd_struct 1 1 1 1 1)) with 1. change (td_x2 (trd_struct 1 1 1 1 1)) with 1. change (td_y2 (trd_struct 1 1 1 1 1)) with 1. unfold minus_tolerant. rewrite Hh.
  rewrite (abs_is (1 - 1 / 4000000000) (1 - 1 / 4000000000)) by lra. destruct (rltb_spec (1 - 1 / 4000000000) (1 - 5 / 10000000000)); [lra|]. rewrite !andb_false_r. cbn [negb]. rewrite andb_true_r.
  rewrite (abs_is (- (4000000000 / 4000000000000000001)) (4000000000 / 4000000000000000001)) by lra.
  replace ((1 - 1 / 4000000000 - 1) / (4000000000 / 4000000000000000001)) with (- (4000000000000000001 / 16000000000000000000)) by field.
  destruct (rltb_spec ((1 - 1 / 4000000000) * - (4000000000 / 4000000000000000001)) 0); [|lra]. destruct (rgtb_spec (1 - 1 / 4000000000) (1 - 5 / 10000000000)); [|lra].
  match goal with |- context [rleb (Rabs ?a) 1] => replace (Rabs a) with (6 / 5 - 3999999999999999999 / 16000000000000000000) by (symmetry; apply abs_is; lra) end. replace (0 + _ * 0) with 0 by lra. rewrite Rabs_R0.
  match goal with |- context [rleb ?a 1] => destruct (rleb_spec a 1); [|lra] end. destruct (rleb_spec 0 1); [|lra]. cbn [andb orb].
  unfold snap. rewrite (abs_is _ (4000000000000000001 / 16000000000000000000)) by lra. rewrite Hh. destruct (rltb_spec (4000000000000000001 / 16000000000000000000) (5 / 10000000000)); lra.
Qed.
Print Assumptions C84_to_in_sign_refuted.
(** DistanceToOut answers zero on rays in the plane of an x face, of a Trd1 or UniversalTrd without slope in y. *)
Theorem C84_to_out_slide_refuted : ¬ ∀ k x1 x2 y1 y2 dz p d, 0 < x1 → 0 < x2 → 0 < y1 → 0 < y2 → 0 < dz → (k = Trd1 → y1 = y2) → vmag d = 1 → steady kAbsorb (rough x1 x2 y1 y2 dz) d →
  frustum x1 x2 y1 y2 dz p → ∃ D, trd_to_out k (trd_struct x1 x2 y1 y2 dz) p d = snap D ∧ leaves_at x1 x2 y1 y2 dz p d D.
Proof.
  intros H. assert (Hh : kHalfTolerance = 5 / 10000000000) by (unfold kHalfTolerance, kTolerance; lra). pose (p := V3 1 0 0). pose (d := V3 0 1 0).
  assert (K : kAbsorb <= / 1000000000000) by (unfold kAbsorb; apply Rinv_le_contravar; lra).
  assert (Sp : frustum 1 1 1 1 1 p) by (unfold frustum, p; rewrite !width_same by lra; cbn; rewrite Rabs_R0, Rabs_pos_eq by lra; lra).
  assert (St : steady kAbsorb (rough 1 1 1 1 1) d).
  { intros n c Hi. cbn in Hi. destruct Hi as [E|[E|[E|[E|[E|[E|[]]]]]]]; injection E as <- <-; unfold vdot, d; cbn [vx vy vz]; [left|left|right|right|left|left]; try lra; rewrite (abs_is _ 2) by lra; lra. }
  destruct (H Trd1 1 1 1 1 1 p d) as (D & E & (HD & HS & HN)); try lra; try done.
  { unfold vmag. replace (vdot d d) with 1; [apply R_sqrt.sqrt_1|unfold vdot, d; cbn; field]. }
  assert (D1 : D = 1).
  { destruct (Rtotal_order D 1) as [G|[G|G]]; [exfalso| done | exfalso].
    - apply (HN 1); [done|]. unfold frustum. rewrite !width_same by lra. cbn. rewrite (abs_is (1 + 1 * 0) 1), (abs_is (0 + 1 * 1) 1), (abs_is (0 + 1 * 0) 0) by lra. lra.
    - destruct (HS D) as (_ & A & _); [lra|]. rewrite width_same in A by lra. apply abs_two in A. cbn in A. lra. }
  revert E. rewrite D1. assert (S1 : snap 1 = 1) by (apply snap_id; rewrite Rabs_R1, Hh; lra). assert (S0 : snap 0 = 0) by (unfold snap; by destruct (rltb _ _)). rewrite S1.
  unfold trd_to_out. cbv zeta. rewrite (out_eq Trd1 1 1 1 1 1) by (lra || done). pose proof (proj1 (S_top 1 1 1 1 1 p) Sp) as Ht. destruct (rgtb_spec (ttop 1 1 1 1 1 p) kHalfTolerance); [lra|].
  destruct (rgtb_spec (vz d) 0) as [G|]; [cbn in G; lra|]. destruct (rltb_spec (vz d) 0) as [G|]; [cbn in G; lra|]. cbn [andb].
  assert (NH : ∀ m, face_hit (trd_struct 1 1 1 1 1) false m false p d = None).
  { intros m. unfold face_hit. cbv zeta. cbn [p d vx vy vz]. assert (E : (if m then 0 * -1 else 0) + td_fx (trd_struct 1 1 1 1 1) * 0 = 0) by (destruct m; lra). rewrite E. destruct (rgtb_spec 0 0); [lra|done]. }
  rewrite !NH. cbn [check_varying_y has_varying_y p d vx vy vz]. change (td_y1 (trd_struct 1 1 1 1 1)) with 1. destruct (rltb_spec 1 0); [lra|]. replace (1 + (1 - 0) / 1 * 0) with 1 by field. rewrite wx_eq by lra. rewrite width_same by lra.
  rewrite Rabs_R1. destruct (rltb_spec 1 1); [lra|]. rewrite andb_false_r. cbn [andb]. rewrite S0. lra.
Qed.
Print Assumptions C84_to_out_slide_refuted.
(** Not vacuous: from inside along x, and from above. *)
Example trd_rays : let t := trd_struct 3 1 2 1 1 in
  (∃ D, trd_to_out Trd2 t vzero (V3 1 0 0) = snap D ∧ leaves_at 3 1 2 1 1 vzero (V3 1 0 0) D) ∧
  ∃ D, trd_to_in 1000 Trd2 t (V3 0 0 5) (V3 0 0 (-1)) = snap D ∧ enters_at 3 1 2 1 1 (V3 0 0 5) (V3 0 0 (-1)) D.
Proof.
  cbv zeta. assert (Hh : kHalfTolerance = 5 / 10000000000) by (unfold kHalfTolerance, kTolerance; lra). assert (K : kAbsorb <= / 1000000000000) by (unfold kAbsorb; apply Rinv_le_contravar; lra).
  assert (St : steady kAbsorb (rough 3 1 2 1 1) (V3 1 0 0)).
  { intros n c Hi. cbn in Hi. destruct Hi as [E|[E|[E|[E|[E|[E|[]]]]]]]; injection E as <- <-; unfold vdot; cbn [vx vy vz]; [right|right|left|left|left|left]; try lra; rewrite (abs_is _ 2) by lra; lra. }
  assert (Sz : steady kAbsorb (rough 3 1 2 1 1) (V3 0 0 (-1))).
  { intros n c Hi. cbn in Hi. destruct Hi as [E|[E|[E|[E|[E|[E|[]]]]]]]; injection E as <- <-; unfold vdot; cbn [vx vy vz]; right; [rewrite (abs_is _ 2) by lra|rewrite (abs_is _ 2) by lra|rewrite (abs_is _ 1) by lra|rewrite (abs_is _ 1) by lra|rewrite (abs_is _ 1) by lra|rewrite (abs_is _ 1) by lra]; lra. }
  assert (W : width 1 3 1 0 = 2 ∧ width 1 2 1 0 = 3 / 2) by (unfold width; split; field). destruct W as [W1 W2]. split.
  - apply (C84_to_out Trd2 3 1 2 1 1); try lra; try done; [|intros E; injection E; lra].
    unfold frustum. cbn [vzero vx vy vz]. rewrite W1, W2, Rabs_R0. lra.
  - destruct (C84_to_in 1000 Trd2 3 1 2 1 1 ltac:(lra) ltac:(done) ltac:(lra) ltac:(lra) ltac:(lra) ltac:(lra) (V3 0 0 5) (V3 0 0 (-1))) as [A|[_ B]]; [lra|lra|exact Sz|cbn; left; rewrite Rabs_pos_eq; lra| |done|].
    + exists (V3 0 0 1), (- 1). split; [cbn; auto 10|]. unfold height. cbn [vx vy vz]. lra.
    + exfalso. assert (B1 : ¬ frustum 3 1 2 1 1 (along (V3 0 0 5) (V3 0 0 (-1)) 5)).
      { apply B; [|lra]. intros (_ & _ & A). cbn [vx vz] in A. rewrite Rabs_pos_eq in A; lra. }
      apply B1. unfold frustum. cbn [along vadd vscale vx vy vz]. replace (0 + 5 * 0) with 0 by lra. replace (5 + 5 * -1) with 0 by lra. rewrite W1, W2, Rabs_R0. lra.
Qed.
