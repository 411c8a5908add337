(** C84: Trds (frustums over rectangles): solid, classes, safeties. *)
From Coq Require Import Reals Lra Lia Bool ZArith Psatz.
From stdpp Require Import base list option numbers tactics.
From Verif Require Import Real3 AABBModel BoxModel BoxProofs PlanesModel PlanesSpec PlanesProofs TrapSpec TrdModel TrdSpec TrdProofs.
Import stdpp.list.
Local Open Scope R_scope.

Section Trd.
Variables (k : trd_type) (x1 x2 y1 y2 dz : R).
Hypothesis Hz : 0 < dz.
(** The type Trd1 is for constant half lengths in y. *)
Hypothesis Hk : k = Trd1 → y1 = y2.
Let t := trd_struct x1 x2 y1 y2 dz.
Let gx := (x2 - x1) / (2 * dz).
Let gy := (y2 - y1) / (2 * dz).
Let F := ramps x1 x2 y1 y2 dz.
Let S := frustum x1 x2 y1 y2 dz.
Let C := frustum_core x1 x2 y1 y2 dz.
Let X := hX x1 x2 dz. Let Y := hY y1 y2 dz. Let Z := hZ dz. Let T := ttop x1 x2 y1 y2 dz.
(** How far from the faces at -y and +y Inside says surface. *)
Definition slack_y : R := match k with Trd1 => kHalfTolerance | _ => kTolerance * (secant gx / secant gy) end.
Lemma flat_y : y1 = y2 → gy = 0 ∧ secant gy = 1 ∧ ∀ p, Y p = Rabs (vy p) - y1.
Proof using Hz.
  intros E. assert (G : gy = 0) by (unfold gy; rewrite E; field; lra). split; [done|]. rewrite G. split; [apply secant_0|]. intros p. unfold Y, hY. fold gy. rewrite G, secant_0, E, width_same by done. field.
Qed.
Lemma kernel_eq (b : bool) (p : v3) : let e := if b then kHalfTolerance else 0 in let ex := if b then kTolerance else 0 in let ey := if b then slack_y else 0 in
  snd (trd_kernel k t b p) = rgtb (Z p) e || rgtb (X p) ex || rgtb (Y p) ey ∧
  (b = true → fst (trd_kernel k t b p) = rltb (Z p) (- e) && rltb (X p) (- ex) && rltb (Y p) (- ey)).
Proof using Hz Hk.
  cbv zeta. unfold trd_kernel. cbv zeta. unfold t at 1 2 3 4 5 6 7 8. pose proof (tx_eq x1 x2 y1 y2 dz Hz) as TX. pose proof (ty_eq x1 x2 y1 y2 dz Hz) as TY. fold t in TX, TY. fold gx in TX, TY.
  change (td_z (trd_struct x1 x2 y1 y2 dz)) with dz. change (td_x1 (trd_struct x1 x2 y1 y2 dz)) with x1. change (td_dx (trd_struct x1 x2 y1 y2 dz)) with (x2 - x1).
  change (td_z t) with dz. change (td_y1 t) with y1. change (td_dy t) with (y2 - y1). change (td_x1 t) with x1. change (td_dx t) with (x2 - x1).
  rewrite !orient_eq by done. rewrite TX, TY.
  pose proof (secant_pos gx) as Px. pose proof (secant_pos gy) as Py.
  assert (GX : ∀ r, (Rabs (vx p) - width dz x1 x2 (vz p)) > r * secant gx ↔ X p > r).
  { intros r. unfold X, hX. fold gx. pose proof (div_le (Rabs (vx p) - width dz x1 x2 (vz p)) (secant gx) r). split; intros; lra || (destruct (Rle_dec ((Rabs (vx p) - width dz x1 x2 (vz p)) / secant gx) r); [tauto || lra|lra]). }
  assert (LX : ∀ r, (Rabs (vx p) - width dz x1 x2 (vz p)) < r * secant gx ↔ X p < r) by (intros r; unfold X, hX; fold gx; rewrite div_lt by lra; done).
  assert (LY : ∀ r, (Rabs (vy p) - width dz y1 y2 (vz p)) < r * secant gy ↔ Y p < r) by (intros r; unfold Y, hY; fold gy; rewrite div_lt by lra; done).
  assert (GY : ∀ r, (Rabs (vy p) - width dz y1 y2 (vz p)) > r * secant gy ↔ Y p > r).
  { intros r. pose proof (div_le (Rabs (vy p) - width dz y1 y2 (vz p)) (secant gy) r) as H. unfold Y, hY. fold gy. split; intros; lra || (destruct (Rle_dec ((Rabs (vy p) - width dz y1 y2 (vz p)) / secant gy) r); [tauto || lra|lra]). }
  assert (BG : ∀ a b c d, (a > b ↔ c > d) → rgtb a b = rgtb c d) by (intros a b0 c d H; destruct (rgtb_spec a b0), (rgtb_spec c d); tauto).
  assert (BL : ∀ a b c d, (a < b ↔ c < d) → rltb a b = rltb c d) by (intros a b0 c d H; destruct (rltb_spec a b0), (rltb_spec c d); tauto).
  assert (BLG : ∀ a b c d, (a < b ↔ c > d) → rltb a b = rgtb c d) by (intros a b0 c d H; destruct (rltb_spec a b0), (rgtb_spec c d); tauto).
  assert (BGL : ∀ a b c d, (a > b ↔ c < d) → rgtb a b = rltb c d) by (intros a b0 c d H; destruct (rgtb_spec a b0), (rltb_spec c d); tauto).
  assert (X0 : rltb (2 * dz * (width dz x1 x2 (vz p) - Rabs (vx p))) 0 = rgtb (X p) 0) by (apply BLG; rewrite <- GX; split; intros; nra).
  assert (X1 : rltb (2 * dz * (width dz x1 x2 (vz p) - Rabs (vx p))) (- (kTolerance * (2 * dz * secant gx))) = rgtb (X p) kTolerance) by (apply BLG; rewrite <- GX; split; intros; nra).
  assert (X2 : rgtb (2 * dz * (width dz x1 x2 (vz p) - Rabs (vx p))) (kTolerance * (2 * dz * secant gx)) = rltb (X p) (- kTolerance)) by (apply BGL; rewrite <- LX; split; intros; nra).
  assert (Z1 : ∀ e, rgtb (Rabs (vz p)) (dz + e) = rgtb (Z p) e) by (intros e; apply BG; unfold Z, hZ; lra).
  assert (Z2 : ∀ e, rltb (Rabs (vz p)) (dz - e) = rltb (Z p) (- e)) by (intros e; apply BL; unfold Z, hZ; lra).
  assert (Z0 : rgtb (Rabs (vz p)) dz = rgtb (Z p) 0) by (apply BG; unfold Z, hZ; lra).
  assert (K : k = Trd1 ∨ has_varying_y k ≠ kNo ∧ slack_y = kTolerance * (secant gx / secant gy)) by (unfold slack_y; destruct k; auto; right; split; done).
  destruct K as [K|[K SY]].
  - destruct (flat_y (Hk K)) as (G0 & S0 & YE). assert (SY : slack_y = kHalfTolerance) by (unfold slack_y; by rewrite K). rewrite SY. rewrite K. cbn [has_varying_y fst snd].
    assert (Y1 : ∀ e, rgtb (Rabs (vy p)) (y1 + e) = rgtb (Y p) e) by (intros e; apply BG; rewrite YE; lra).
    assert (Y2 : ∀ e, rltb (Rabs (vy p)) (y1 - e) = rltb (Y p) (- e)) by (intros e; apply BL; rewrite YE; lra).
    assert (Y0 : rgtb (Rabs (vy p)) y1 = rgtb (Y p) 0) by (apply BG; rewrite YE; lra).
    destruct b; unfold plus_tolerant, minus_tolerant; (split; [|intros; try done]).
    + rewrite Z1, X1, Y1. done.
    + rewrite Z2, X2, Y2. done.
    + rewrite Z0, X0, Y0. done.
  - assert (Y0 : rltb (2 * dz * (width dz y1 y2 (vz p) - Rabs (vy p))) 0 = rgtb (Y p) 0) by (apply BLG; rewrite <- GY; split; intros; nra).
    assert (ES : slack_y * secant gy = kTolerance * secant gx) by (rewrite SY; field; lra).
    assert (Y1 : rltb (2 * dz * (width dz y1 y2 (vz p) - Rabs (vy p))) (- (kTolerance * (2 * dz * secant gx))) = rgtb (Y p) slack_y) by (apply BLG; rewrite <- GY, ES; split; intros; nra).
    assert (Y2 : rgtb (2 * dz * (width dz y1 y2 (vz p) - Rabs (vy p))) (kTolerance * (2 * dz * secant gx)) = rltb (Y p) (- slack_y)) by (apply BGL; rewrite <- LY; replace (- slack_y * secant gy) with (- (kTolerance * secant gx)) by lra; split; intros; nra).
    destruct (has_varying_y k); [|done|]; destruct b; unfold plus_tolerant, minus_tolerant; cbn [fst snd]; (split; [|intros; try done]); rewrite ?Z0, ?Z1, ?Z2, ?X0, ?X1, ?X2, ?Y0, ?Y1, ?Y2; done.
Qed.
Lemma slack_pos : 0 < slack_y.
Proof using. clear Hk. pose proof (secant_pos gx). pose proof (secant_pos gy). pose proof kHalfTolerance_pos. unfold slack_y. assert (0 < kTolerance * (secant gx / secant gy)) by (apply Rmult_lt_0_compat; [unfold kTolerance; lra|apply Rdiv_lt_0_compat; lra]). destruct k; done. Qed.
Lemma S_cut p : S p ↔ cut F p.
Proof using Hz. unfold S, F. rewrite S_top. apply top_cut, Hz. Qed.
Lemma dims_top p pl : In pl (tpls x1 x2 y1 y2 dz) → pl_dist pl p <= T p.
Proof using Hz. apply (ttop_spec x1 x2 y1 y2 dz Hz). Qed.

(** The solid is the part common to six half spaces. *)
Theorem C84_solid p : (S p ↔ cut F p) ∧ (C p ↔ cut_open F p) ∧ unit_normals F.
Proof using Hz. split; [apply S_cut|]. split; [unfold C, F; rewrite C_top; apply top_cut_open, Hz|]. apply unit_ramps, Hz. Qed.
(** Contains: the solid, surface included. *)
Theorem C84_contains p : trd_contains k t p = true ↔ S p.
Proof using Hz Hk.
  unfold trd_contains. destruct (kernel_eq false p) as [-> _]. cbv zeta. unfold S. rewrite S_top. fold T. unfold T. rewrite ttop_le. fold (Z p) (X p) (Y p).
  rewrite negb_true_iff, !orb_false_iff. destruct (rgtb_spec (Z p) 0), (rgtb_spec (X p) 0), (rgtb_spec (Y p) 0); split; intros; try done; try lra; intuition (try done; lra).
Qed.
(** Inside: room, distance, or neither; at the y faces of types other than Trd1 by the tolerance of the x faces. *)
Theorem C84_inside p : let lo := Rmin kHalfTolerance slack_y in let hi := Rmax kTolerance slack_y in
  match trd_inside k t p with
  | kInside => ∃ e, lo < e ∧ deep_in S p e
  | kOutside => ∃ e, lo < e ∧ clear_of S p e
  | kSurface => (S p → ∃ e, e <= hi ∧ escapes S p e) ∧ ∀ n d, In (n, d) F → height n d p <= hi
  end.
Proof using Hz Hk.
  cbv zeta. unfold trd_inside. destruct (kernel_eq true p) as [Eo Ei]. specialize (Ei eq_refl). destruct (trd_kernel k t true p) as [i o]. cbn [fst snd] in Eo, Ei. cbv zeta in Eo, Ei. subst i o.
  pose proof kHalfTolerance_pos as Hh. pose proof slack_pos as Hs. assert (HT : kHalfTolerance <= kTolerance) by (unfold kHalfTolerance in *; lra).
  set (lo := Rmin kHalfTolerance slack_y). set (hi := Rmax kTolerance slack_y). assert (L1 : lo <= kHalfTolerance) by apply Rmin_l. assert (L2 : lo <= slack_y) by apply Rmin_r.
  assert (H1 : kTolerance <= hi) by apply Rmax_l. assert (H2 : slack_y <= hi) by apply Rmax_r.
  destruct (ttop_spec x1 x2 y1 y2 dz Hz p) as (A & pl & Hi & B). fold (T p) in *.
  assert (Hle : ∀ r, T p <= r ↔ Z p <= r ∧ X p <= r ∧ Y p <= r) by (intros; apply ttop_le).
  assert (Hlt : ∀ r, T p < r ↔ Z p < r ∧ X p < r ∧ Y p < r) by (intros; apply ttop_lt).
  assert (U : unit_normals (halves (tpls x1 x2 y1 y2 dz))) by (apply unit_ramps, Hz). assert (Sh : short_normals (halves (tpls x1 x2 y1 y2 dz))) by (apply short_ramps, Hz).
  assert (Out : lo < T p → ∃ e, lo < e ∧ clear_of S p e).
  { intros Hl. exists (T p). split; [done|]. intros q Hq. apply S_cut in Hq. revert q Hq. apply (clear_of_dist _ _ _ pl Sh Hi). fold (T p). lra. }
  assert (Inn : T p < - lo → ∃ e, lo < e ∧ deep_in S p e).
  { intros Hl. exists (- T p). split; [lra|]. intros q Hq. apply S_cut. revert q Hq. apply (deep_of_dist _ _ _ Sh). intros q Hq. specialize (A _ Hq). fold (T p) in A. lra. }
  destruct (rgtb_spec (Z p) kHalfTolerance) as [E1|E1]; cbn [orb]; [apply Out; pose proof (proj1 (Hle (T p)) (Rle_refl _)); lra|].
  destruct (rgtb_spec (X p) kTolerance) as [E2|E2]; cbn [orb]; [apply Out; pose proof (proj1 (Hle (T p)) (Rle_refl _)); lra|].
  destruct (rgtb_spec (Y p) slack_y) as [E3|E3]; cbn [orb]; [apply Out; pose proof (proj1 (Hle (T p)) (Rle_refl _)); lra|].
  assert (Srf : T p <= hi) by (apply Hle; lra).
  assert (Hts : ∀ n d, In (n, d) F → height n d p <= hi).
  { intros n d Hn. assert (Hn' : In (n, d) (halves (tpls x1 x2 y1 y2 dz))) by done. apply in_halves in Hn'. specialize (A _ Hn'). rewrite <- height_dist in A. cbn [pl_n pl_d] in A. fold (T p) in A. lra. }
  assert (Esc : - hi <= T p → (S p → ∃ e, e <= hi ∧ escapes S p e)).
  { intros Hl Hp. apply (proj1 (S_top _ _ _ _ _ p)) in Hp. fold (T p) in Hp. exists (- T p). split; [lra|]. intros e He.
    destruct (escapes_of_dist (tpls x1 x2 y1 y2 dz) p (- T p) pl U Hi) with (e := e) as (q & Hq & Hn); [lra|fold (T p) in B; lra|done|]. exists q. split; [done|]. by rewrite S_cut. }
  pose proof (proj1 (Hle (T p)) (Rle_refl _)) as (TZ & TX & TY).
  destruct (rltb_spec (Z p) (- kHalfTolerance)) as [F1|F1]; cbn [andb]; [|split; [apply Esc; lra|done]].
  destruct (rltb_spec (X p) (- kTolerance)) as [F2|F2]; cbn [andb]; [|split; [apply Esc; lra|done]].
  destruct (rltb_spec (Y p) (- slack_y)) as [F3|F3]; [|split; [apply Esc; lra|done]].
  apply Inn, Hlt. lra.
Qed.
(** With the same slope of the x and y faces, or of type Trd1, that is half a tolerance and a tolerance. *)
Theorem C84_inside_slack : Rabs (x2 - x1) = Rabs (y2 - y1) ∨ k = Trd1 → Rmin kHalfTolerance slack_y = kHalfTolerance ∧ Rmax kTolerance slack_y = kTolerance.
Proof using Hz.
  clear Hk. pose proof kHalfTolerance_pos. assert (HT : kHalfTolerance <= kTolerance) by (unfold kHalfTolerance in *; lra). assert (E : slack_y = kTolerance ∨ slack_y = kHalfTolerance → Rmin kHalfTolerance slack_y = kHalfTolerance ∧ Rmax kTolerance slack_y = kTolerance).
  { intros [E|E]; rewrite E; split; unfold Rmin, Rmax; destruct (Rle_dec _ _); lra. }
  intros [H1|H1]; apply E; [|right; unfold slack_y; by rewrite H1]. assert (Q : secant gx = secant gy).
  { unfold secant. f_equal. f_equal. unfold gx, gy. assert (Q : (x2 - x1) * (x2 - x1) = (y2 - y1) * (y2 - y1)) by (apply Rsqr_eq_asb_1; done).
    replace ((x2 - x1) / (2 * dz) * ((x2 - x1) / (2 * dz))) with ((x2 - x1) * (x2 - x1) / (4 * dz * dz)) by (field; lra). rewrite Q. field. lra. }
  pose proof (secant_pos gy). unfold slack_y. rewrite Q. replace (kTolerance * (secant gy / secant gy)) with kTolerance by (field; lra). destruct k; auto.
Qed.

(** Safeties, with no negative half lengths. *)
Hypotheses (Hx1 : 0 <= x1) (Hx2 : 0 <= x2) (Hy1 : 0 <= y1) (Hy2 : 0 <= y2).
Lemma safety_eq p : trd_safety k t true p =
  let b := width dz x1 x2 (vz p) in let c := width dz y1 y2 (vz p) in
  let d := - Z p in let d := if rgeb b 0 && rltb (- X p) d then - X p else d in
  if rgeb c 0 && rltb (- Y p) d then - Y p else d.
Proof using Hz Hk Hy1 Hy2.
  unfold trd_safety. cbv zeta. unfold t. rewrite wx_eq, wy_eq, cx_eq, cy_eq by done. fold gx gy. fold t. pose proof (secant_pos gx) as Px. pose proof (secant_pos gy) as Py.
  assert (EX : (width dz x1 x2 (vz p) - Rabs (vx p)) * (1 / secant gx) = - X p) by (unfold X, hX; fold gx; field; lra).
  assert (EY : (width dz y1 y2 (vz p) - Rabs (vy p)) * (1 / secant gy) = - Y p) by (unfold Y, hY; fold gy; field; lra).
  assert (EZ : td_z t - Rabs (vz p) = - Z p) by (unfold Z, hZ; change (td_z t) with dz; lra). rewrite EX, EY, EZ.
  destruct (check_varying_y k t) eqn:V; [done|]. assert (E : y1 = y2).
  { unfold check_varying_y in V. destruct k eqn:K; cbn [has_varying_y] in V; [|auto|done]. apply negb_false_iff in V. unfold reqb in V. destruct (Req_EM_T (td_y1 t) (td_y2 t)) as [E|]; [exact E|done]. }
  destruct (flat_y E) as (_ & _ & YE). assert (E1 : td_y1 t - Rabs (vy p) = - Y p) by (rewrite YE; change (td_y1 t) with y1; lra). rewrite E1.
  assert (E2 : rgeb (width dz y1 y2 (vz p)) 0 = true) by (rewrite <- E, width_same by done; destruct (rgeb_spec y1 0); [done|lra]). rewrite E2. done.
Qed.
Lemma safety_top p : let s := trd_safety k t true p in - T p <= s ∧ (Rabs (vz p) <= dz → s = - T p) ∧ s <= - Z p.
Proof using Hz Hk Hx1 Hx2 Hy1 Hy2.
  cbv zeta. rewrite safety_eq. cbv zeta. match goal with |- context [- T p <= ?e] => set (s := e) end. assert (Tm : T p = Rmax (Z p) (Rmax (X p) (Y p))) by done.
  assert (M : Z p <= T p ∧ X p <= T p ∧ Y p <= T p ∧ (T p = Z p ∨ T p = X p ∨ T p = Y p)).
  { destruct (proj1 (ttop_le x1 x2 y1 y2 dz p (T p)) (Rle_refl _)) as (? & ? & ?). repeat split; try done. rewrite Tm. unfold Rmax; repeat destruct (Rle_dec _ _); auto. }
  destruct M as (MZ & MX & MY & ME).
  split; [|split].
  - unfold s. repeat match goal with |- context [rltb ?a ?b] => destruct (rltb_spec a b) end; repeat match goal with |- context [rgeb ?a ?b] => destruct (rgeb a b) end; cbn [andb]; lra.
  - intros Hp. unfold s. assert (W1 : 0 <= width dz x1 x2 (vz p)) by (apply width_nonneg; done). assert (W2 : 0 <= width dz y1 y2 (vz p)) by (apply width_nonneg; done).
    destruct (rgeb_spec (width dz x1 x2 (vz p)) 0); [|lra]. destruct (rgeb_spec (width dz y1 y2 (vz p)) 0); [|lra]. cbn [andb].
    destruct (rltb_spec (- X p) (- Z p)); match goal with |- context [rltb ?a ?b] => destruct (rltb_spec a b) end; destruct ME as [E|[E|E]]; lra.
  - unfold s. destruct (rgeb (width dz x1 x2 (vz p)) 0), (rgeb (width dz y1 y2 (vz p)) 0); cbn [andb]; destruct (rltb_spec (- X p) (- Z p)); repeat match goal with |- context [rltb ?a ?b] => destruct (rltb_spec a b) end; lra.
Qed.
Lemma S_z p : S p → Rabs (vz p) <= dz.
Proof using. intros H. apply H. Qed.
(** SafetyToOut: from points of the solid the ball of that radius is in it, no larger one is; negative outside. *)
Theorem C84_safety_to_out p : let r := trd_safety_out k t p in (S p → 0 <= r ∧ deep_in S p r ∧ escapes S p r) ∧ (¬ S p → r < 0).
Proof using Hz Hk Hx1 Hx2 Hy1 Hy2.
  cbv zeta. unfold trd_safety_out. destruct (safety_top p) as (A & B & D). destruct (ttop_spec x1 x2 y1 y2 dz Hz p) as (E & pl & Hi & G). fold (T p) in *.
  assert (U : unit_normals (halves (tpls x1 x2 y1 y2 dz))) by (apply unit_ramps, Hz). assert (Sh : short_normals (halves (tpls x1 x2 y1 y2 dz))) by (apply short_ramps, Hz). split.
  - intros Hp. rewrite (B (S_z p Hp)). pose proof (proj1 (S_top _ _ _ _ _ p) Hp) as Ht. fold (T p) in Ht. split; [lra|]. split.
    + intros q Hq. apply S_cut. revert q Hq. apply (deep_of_dist _ _ _ Sh). intros q Hq. specialize (E _ Hq). fold (T p) in E. lra.
    + intros e He. destruct (escapes_of_dist (tpls x1 x2 y1 y2 dz) p (- T p) pl U Hi) with (e := e) as (q & Hq & Hn); [lra|fold (T p) in G; lra|done|]. exists q. split; [done|]. by rewrite S_cut.
  - intros Hp. destruct (Rle_dec (Rabs (vz p)) dz) as [L|L]; [|unfold Z, hZ in D; lra]. rewrite (B L). destruct (Rle_dec (T p) 0); [|lra]. exfalso. apply Hp. by apply S_top.
Qed.
(** SafetyToIn: the solid is at least that far away; positive exactly outside; minus SafetyToOut. *)
Theorem C84_safety_to_in p : let r := trd_safety_in k t p in r = - trd_safety_out k t p ∧ clear_of S p r ∧ (0 < r ↔ ¬ S p).
Proof using Hz Hk Hx1 Hx2 Hy1 Hy2.
  cbv zeta. assert (E : trd_safety_in k t p = - trd_safety_out k t p) by done. split; [done|]. destruct (C84_safety_to_out p) as [A B]. cbv zeta in A, B. rewrite E. split.
  - intros q Hq. destruct (safety_top p) as (D & _ & _). fold (trd_safety_out k t p) in D. destruct (ttop_spec x1 x2 y1 y2 dz Hz p) as (_ & pl & Hi & G). fold (T p) in G.
    assert (Sh : short_normals (halves (tpls x1 x2 y1 y2 dz))) by (apply short_ramps, Hz). apply S_cut in Hq. pose proof (clear_of_dist _ p (T p) pl Sh Hi ltac:(fold (T p) in G; lra) q Hq). lra.
  - split; [intros H Hp; destruct (A Hp); lra|]. intros Hp. specialize (B Hp). lra.
Qed.
End Trd.
Print Assumptions C84_solid.
Print Assumptions C84_contains.
Print Assumptions C84_inside.
Print Assumptions C84_inside_slack.
Print Assumptions C84_safety_to_out.
Print Assumptions C84_safety_to_in.

(** The tolerance of the y faces is that of the slope in x: Inside answers kSurface from points deeper than 1. *)
Theorem C84_inside_refuted : ¬ ∀ k x1 x2 y1 y2 dz p, 0 < x1 → 0 < x2 → 0 < y1 → 0 < y2 → 0 < dz → (k = Trd1 → y1 = y2) →
  trd_inside k (trd_struct x1 x2 y1 y2 dz) p = kSurface → ¬ deep_in (frustum x1 x2 y1 y2 dz) p 1.
Proof.
  intros H. pose (p := V3 0 4 0). apply (H Trd2 1 4000000001 5 6 1 p); try lra; try done.
  - destruct (kernel_eq Trd2 1 4000000001 5 6 1 ltac:(lra) ltac:(done) true p) as [E1 E2]. cbv zeta in E1, E2. specialize (E2 eq_refl). unfold trd_inside. destruct (trd_kernel _ _ true p) as [i o]. cbn [fst snd] in E1, E2. subst i o.
    pose proof kHalfTolerance_pos as Hh. pose proof (slack_pos Trd2 1 4000000001 5 6 1) as Hs.
    assert (TS : 0 < kTolerance) by (unfold kTolerance; lra).
    assert (Ht : ttop 1 4000000001 5 6 1 p <= 0). { apply S_top. unfold frustum, p, width. cbn. rewrite Rabs_R0, (Rabs_pos_eq 4) by lra. lra. } apply ttop_le in Ht.
    destruct (rgtb_spec (hZ 1 p) kHalfTolerance); [lra|]. destruct (rgtb_spec (hX 1 4000000001 1 p) kTolerance); [lra|]. destruct (rgtb_spec (hY 5 6 1 p) (slack_y Trd2 1 4000000001 5 6 1)); [lra|]. cbn [orb].
    destruct (rltb_spec (hY 5 6 1 p) (- slack_y Trd2 1 4000000001 5 6 1)) as [G|]; [|by rewrite andb_false_r]. exfalso. revert G. unfold hY, slack_y, p. cbn [vy vz]. rewrite (Rabs_pos_eq 4) by lra.
    replace (width 1 5 6 0) with (11 / 2) by (unfold width; field). set (a := secant ((4000000001 - 1) / (2 * 1))). set (b := secant ((6 - 5) / (2 * 1))). assert (Hb : 0 < b) by (pose proof (secant_pos ((6 - 5) / (2 * 1))); fold b in H0; lra).
    assert (Ha : 2000000000 <= a). { unfold a, secant. rewrite <- (R_sqrt.sqrt_square 2000000000) by lra. apply R_sqrt.sqrt_le_1_alt. lra. }
    replace (kTolerance * (a / b)) with (kTolerance * a / b) by (field; lra). unfold Rdiv. pose proof (Rinv_0_lt_compat b Hb) as Ib. set (ib := / b) in *. unfold kTolerance. intros G. nra.
  - intros q Hq. unfold vdist in Hq. pose proof (vx_le_mag (vsub p q)) as Ax. pose proof (vy_le_mag (vsub p q)) as Ay. pose proof (vz_le_mag (vsub p q)) as Az. cbn [p vsub vx vy vz] in Ax, Ay, Az.
    assert (Bx : Rabs (0 - vx q) <= 1) by lra. assert (By : Rabs (4 - vy q) <= 1) by lra. assert (Bz : Rabs (0 - vz q) <= 1) by lra. apply abs_two in Bx, By, Bz. unfold frustum, width. split; [|split]; apply abs_two; lra.
Qed.
Print Assumptions C84_inside_refuted.
(** Not vacuous: a solid, two points of it and a point outside. *)
Example trd_points : let t := trd_struct 3 1 2 1 1 in trd_contains Trd2 t (V3 1 1 0) = true ∧ trd_contains Trd2 t (V3 2 0 0) = true ∧ trd_contains Trd2 t (V3 (5 / 2) 0 0) = false.
Proof.
  cbv zeta. assert (W : width 1 3 1 0 = 2 ∧ width 1 2 1 0 = 3 / 2) by (unfold width; split; field). destruct W as [W1 W2].
  split; [|split]; [apply C84_contains; [lra|done|]|apply C84_contains; [lra|done|]|apply not_true_is_false; rewrite C84_contains by (lra || done)]; unfold frustum; cbn [vx vy vz]; rewrite W1, W2, Rabs_R0, Rabs_pos_eq by lra; rewrite ?Rabs_pos_eq by lra; lra.
Qed.
