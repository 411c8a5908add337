(** Frustums: heights over the faces, safeties, rays. *)
From Coq Require Import Reals Lra Lia Bool ZArith Psatz.
From stdpp Require Import base list option numbers tactics.
From Verif Require Import Real3 AABBModel BoxModel BoxProofs PlanesModel PlanesSpec PlanesProofs TrapSpec TrdModel TrdSpec.
Import stdpp.list.
Local Open Scope R_scope.

Lemma secant_pos g : 1 <= secant g.
Proof. unfold secant. rewrite <- sqrt_1 at 1. apply sqrt_le_1_alt. pose proof (Rle_0_sqr g). unfold Rsqr in *. lra. Qed.
Lemma secant_sqr g : secant g * secant g = 1 + g * g.
Proof. unfold secant. apply sqrt_sqrt. pose proof (Rle_0_sqr g). unfold Rsqr in *. lra. Qed.
Lemma secant_opp g : secant (- g) = secant g.
Proof. unfold secant. f_equal. ring. Qed.
Lemma secant_0 : secant 0 = 1.
Proof. unfold secant. rewrite Rmult_0_l, Rplus_0_r. apply sqrt_1. Qed.
Lemma abs_two x w : Rabs x <= w ↔ x - w <= 0 ∧ - x - w <= 0.
Proof. split; [intros H; apply Rabs_le_between in H || (pose proof (Rle_abs x); pose proof (Rle_abs (- x)); rewrite Rabs_Ropp in *); lra|]. intros. apply Rabs_le. lra. Qed.

Lemma div_nonneg a b : 0 <= a → 0 < b → 0 <= a / b.
Proof. intros. unfold Rdiv. apply Rmult_le_pos; [done|]. apply Rlt_le, Rinv_0_lt_compat. done. Qed.
(** Functions linear along a ray: the first to become positive, the last to become non-positive. *)
Lemma first_leaving (L : list (R * R)) : (∀ a b, In (a, b) L → a <= 0) → (∃ a b, In (a, b) L ∧ 0 < b) →
  ∃ a b, In (a, b) L ∧ 0 < b ∧ ∀ a' b', In (a', b') L → a' + (- a / b) * b' <= 0.
Proof.
  induction L as [|[a b] L IH]; intros Ha (a0 & b0 & Hi & Hb0); [by destruct Hi|].
  assert (Hn : ∀ a' b', In (a', b') L → a' <= 0) by (intros; eapply Ha; right; eassumption).
  assert (Ha0 : a <= 0) by (apply (Ha a b); by left).
  destruct (Rlt_dec 0 b) as [Hb|Hb].
  - assert (Hself : ∀ s, 0 <= s → s <= - a / b → a + s * b <= 0).
    { intros s Hs H. apply (Rmult_le_compat_r b) in H; [|lra]. replace (- a / b * b) with (- a) in H by (field; lra). lra. }
    assert (D0 : 0 <= - a / b) by (apply div_nonneg; lra).
    destruct (Forall_Exists_dec (λ ab : R * R, ¬ 0 < ab.2) (λ ab : R * R, 0 < ab.2)) with (l := L) as [F|E].
    { intros [? ?]. cbn. destruct (Rlt_dec 0 r0); [right|left]; done. }
    + exists a, b. split; [by left|]. split; [done|]. intros a' b' [[= <- <-]|Hj]; [apply Hself; lra|].
      rewrite Forall_forall in F. specialize (F (a', b')). cbn in F. assert (¬ 0 < b') by (apply F, elem_of_list_In, Hj). specialize (Hn _ _ Hj). nra.
    + apply Exists_exists in E as ([a3 b3] & H3 & H3'). cbn in H3'. apply elem_of_list_In in H3.
      destruct (IH Hn) as (c & e & Hc & He & H); [by exists a3, b3|]. assert (Hc0 : c <= 0) by (by apply (Hn c e)).
      assert (E0 : 0 <= - c / e) by (apply div_nonneg; lra).
      destruct (Rle_dec (- c / e) (- a / b)) as [Hle|Hle].
      * exists c, e. split; [by right|]. split; [done|]. intros a' b' [[= <- <-]|Hj]; [by apply Hself|by apply H].
      * exists a, b. split; [by left|]. split; [done|]. intros a' b' [[= <- <-]|Hj]; [apply Hself; lra|]. specialize (H _ _ Hj). specialize (Hn _ _ Hj). nra.
  - destruct (IH Hn) as (c & e & Hc & He & H).
    { destruct Hi as [[= -> ->]|Hi]; [lra|]. by exists a0, b0. }
    exists c, e. split; [by right|]. split; [done|]. intros a' b' [[= <- <-]|Hj]; [|by apply H].
    assert (Hc0 : c <= 0) by (by apply (Hn c e)). assert (E0 : 0 <= - c / e) by (apply div_nonneg; lra). nra.
Qed.
Lemma last_entering (L : list (R * R)) u : 0 <= u → (∀ a b, In (a, b) L → a + u * b <= 0) → (∃ a b, In (a, b) L ∧ 0 < a) →
  ∃ a b, In (a, b) L ∧ 0 < a ∧ b < 0 ∧ - a / b <= u ∧ ∀ a' b', In (a', b') L → a' + (- a / b) * b' <= 0.
Proof.
  intros Hu. induction L as [|[a b] L IH]; intros Ha (a0 & b0 & Hi & Hb0); [by destruct Hi|].
  assert (Hn : ∀ a' b', In (a', b') L → a' + u * b' <= 0) by (intros; apply Ha; by right).
  assert (Hh : a + u * b <= 0) by (apply Ha; by left).
  assert (Q : ∀ c e, 0 < c → c + u * e <= 0 → e < 0 ∧ 0 < - c / e <= u).
  { intros c e Hc H. assert (e < 0) by nra. split; [done|]. replace (- c / e) with (c / - e) by (field; lra). split; [apply Rdiv_lt_0_compat; lra|].
    apply (Rmult_le_reg_r (- e)); [lra|]. replace (c / - e * - e) with c by (field; lra). lra. }
  assert (Hmid : ∀ c e s, c <= 0 → c + u * e <= 0 → 0 <= s <= u → c + s * e <= 0) by (intros c e s H1 H2 H3; destruct (Rle_dec e 0); [assert (0 <= s * - e) by (apply Rmult_le_pos; lra); lra|assert (0 <= (u - s) * e) by (apply Rmult_le_pos; lra); lra]).
  destruct (Rlt_dec 0 a) as [Hp|Hp].
  - destruct (Q a b Hp Hh) as (Hb & D0 & D1).
    assert (Hself : ∀ s, - a / b <= s → a + s * b <= 0).
    { intros s H. apply (Rmult_le_compat_r (- b)) in H; [|lra]. replace (- a / b * - b) with a in H by (field; lra). lra. }
    destruct (Forall_Exists_dec (λ ab : R * R, ¬ 0 < ab.1) (λ ab : R * R, 0 < ab.1)) with (l := L) as [F|E].
    { intros [? ?]. cbn. destruct (Rlt_dec 0 r); [right|left]; done. }
    + exists a, b. split; [by left|]. do 3 (split; [done|]). intros a' b' [[= <- <-]|Hj]; [apply Hself; lra|].
      rewrite Forall_forall in F. specialize (F (a', b')). cbn in F. assert (¬ 0 < a') by (apply F, elem_of_list_In, Hj). specialize (Hn _ _ Hj). apply Hmid; lra.
    + apply Exists_exists in E as ([a3 b3] & H3 & H3'). cbn in H3'. apply elem_of_list_In in H3.
      destruct (IH Hn) as (c & e & Hc & Hcp & He & Hcu & H); [by exists a3, b3|].
      destruct (Rle_dec (- a / b) (- c / e)) as [Hle|Hle].
      * exists c, e. split; [by right|]. do 3 (split; [done|]). intros a' b' [[= <- <-]|Hj]; [by apply Hself|by apply H].
      * exists a, b. split; [by left|]. do 3 (split; [done|]). intros a' b' [[= <- <-]|Hj]; [apply Hself; lra|]. specialize (H _ _ Hj). specialize (Hn _ _ Hj).
        destruct (Q c e Hcp (Ha c e (or_intror Hc))) as (_ & C0 & _). nra.
  - destruct (IH Hn) as (c & e & Hc & Hcp & He & Hcu & H).
    { destruct Hi as [[= -> ->]|Hi]; [lra|]. by exists a0, b0. }
    exists c, e. split; [by right|]. do 3 (split; [done|]). intros a' b' [[= <- <-]|Hj]; [|by apply H].
    destruct (Q c e Hcp (Ha c e (or_intror Hc))) as (_ & C0 & _). apply Hmid; lra.
Qed.

Section Solid.
Variables (x1 x2 y1 y2 dz : R).
Hypothesis Hz : 0 < dz.
Let t := trd_struct x1 x2 y1 y2 dz.
Let gx := (x2 - x1) / (2 * dz).
Let gy := (y2 - y1) / (2 * dz).
Let wx p := width dz x1 x2 (vz p).
Let wy p := width dz y1 y2 (vz p).
Let S := frustum x1 x2 y1 y2 dz.
Let C := frustum_core x1 x2 y1 y2 dz.
Lemma wx_eq z : td_hx t - td_fx t * z = width dz x1 x2 z.
Proof using Hz. unfold t. cbn [trd_struct calculate_cached td_hx td_fx]. unfold width. field. lra. Qed.
Lemma wy_eq z : td_hy t - td_fy t * z = width dz y1 y2 z.
Proof using Hz. unfold t. cbn [trd_struct calculate_cached td_hy td_fy]. unfold width. field. lra. Qed.
Lemma secx_eq : R_sqrt.sqrt (1 + (1 / 2) * (x1 - x2) / dz * ((1 / 2) * (x1 - x2) / dz)) = secant gx.
Proof using Hz. unfold secant, gx. f_equal. field. lra. Qed.
Lemma secy_eq : R_sqrt.sqrt (1 + (1 / 2) * (y1 - y2) / dz * ((1 / 2) * (y1 - y2) / dz)) = secant gy.
Proof using Hz. unfold secant, gy. f_equal. field. lra. Qed.
Lemma cx_eq : td_cx t = 1 / secant gx.
Proof using Hz. unfold t. cbn [trd_struct calculate_cached td_cx]. by rewrite secx_eq. Qed.
Lemma cy_eq : td_cy t = 1 / secant gy.
Proof using Hz. unfold t. cbn [trd_struct calculate_cached td_cy]. by rewrite secy_eq. Qed.
Lemma sx_eq : td_sx t = secant gx.
Proof using Hz. unfold t. cbn [trd_struct calculate_cached td_sx]. by rewrite secx_eq. Qed.
Lemma sy_eq : td_sy t = secant gy.
Proof using Hz. unfold t. cbn [trd_struct calculate_cached td_sy]. by rewrite secy_eq. Qed.
Lemma slant_eq a b : R_sqrt.sqrt ((b - a) * (b - a) + 4 * dz * dz) = 2 * dz * secant ((b - a) / (2 * dz)).
Proof using Hz.
  pose proof (secant_pos ((b - a) / (2 * dz))). apply sqrt_lem_1; [pose proof (Rle_0_sqr (b - a)); unfold Rsqr in *; nra|apply Rmult_le_pos; lra|].
  replace (2 * dz * secant ((b - a) / (2 * dz)) * (2 * dz * secant ((b - a) / (2 * dz)))) with (4 * dz * dz * (secant ((b - a) / (2 * dz)) * secant ((b - a) / (2 * dz)))) by ring.
  rewrite secant_sqr. field. lra.
Qed.
Lemma tx_eq : td_tx t = kTolerance * (2 * dz * secant gx).
Proof using Hz. unfold t. cbn [trd_struct calculate_cached td_tx]. by rewrite slant_eq. Qed.
Lemma ty_eq : td_ty t = kTolerance * (2 * dz * secant gx).
Proof using Hz. unfold t. cbn [trd_struct calculate_cached td_ty]. by rewrite slant_eq. Qed.
Lemma orient_eq a b z c : orientation (c - a) (z + dz) (b - a) (2 * dz) = 2 * dz * (width dz a b z - c).
Proof using Hz. unfold orientation, width. field. lra. Qed.
(** Heights over the nearer face of each pair. *)
Definition hX (p : v3) : R := (Rabs (vx p) - wx p) / secant gx.
Definition hY (p : v3) : R := (Rabs (vy p) - wy p) / secant gy.
Definition hZ (p : v3) : R := Rabs (vz p) - dz.
Definition ttop (p : v3) : R := Rmax (hZ p) (Rmax (hX p) (hY p)).
Lemma ttop_le p r : ttop p <= r ↔ hZ p <= r ∧ hX p <= r ∧ hY p <= r.
Proof using.
  unfold ttop. split.
  - intros H. pose proof (Rmax_l (hZ p) (Rmax (hX p) (hY p))). pose proof (Rmax_r (hZ p) (Rmax (hX p) (hY p))). pose proof (Rmax_l (hX p) (hY p)). pose proof (Rmax_r (hX p) (hY p)). lra.
  - intros (? & ? & ?). by repeat apply Rmax_lub.
Qed.
Lemma ttop_lt p r : ttop p < r ↔ hZ p < r ∧ hX p < r ∧ hY p < r.
Proof using.
  unfold ttop. split.
  - intros H. pose proof (Rmax_l (hZ p) (Rmax (hX p) (hY p))). pose proof (Rmax_r (hZ p) (Rmax (hX p) (hY p))). pose proof (Rmax_l (hX p) (hY p)). pose proof (Rmax_r (hX p) (hY p)). lra.
  - intros (? & ? & ?). by repeat apply Rmax_lub_lt.
Qed.
Lemma div_le a b r : 0 < b → a / b <= r ↔ a <= r * b.
Proof using.
  intros Hb. split; intros H; [apply (Rmult_le_compat_r b) in H; [|lra]; replace (a / b * b) with a in H by (field; lra); lra|].
  apply (Rmult_le_reg_r b); [done|]. replace (a / b * b) with a by (field; lra). lra.
Qed.
Lemma div_lt a b r : 0 < b → a / b < r ↔ a < r * b.
Proof using.
  intros Hb. split; intros H; [apply (Rmult_lt_compat_r b) in H; [|lra]; replace (a / b * b) with a in H by (field; lra); lra|].
  apply (Rmult_lt_reg_r b); [done|]. replace (a / b * b) with a by (field; lra). lra.
Qed.
Lemma S_top p : S p ↔ ttop p <= 0.
Proof using. rewrite ttop_le. unfold S, frustum, hX, hY, hZ. pose proof (secant_pos gx). pose proof (secant_pos gy). rewrite !div_le by lra. fold (wx p) (wy p). lra. Qed.
Lemma C_top p : C p ↔ ttop p < 0.
Proof using. rewrite ttop_lt. unfold C, frustum_core, hX, hY, hZ. pose proof (secant_pos gx). pose proof (secant_pos gy). rewrite !div_lt by lra. fold (wx p) (wy p). lra. Qed.
Lemma mag_x s g : s * s = 1 → vmag (V3 s 0 g) = secant g.
Proof using. intros E. unfold vmag, secant, vdot. cbn [vx vy vz]. f_equal. lra. Qed.
Lemma mag_y s g : s * s = 1 → vmag (V3 0 s g) = secant g.
Proof using. intros E. unfold vmag, secant, vdot. cbn [vx vy vz]. f_equal. lra. Qed.
Definition tpls : list plane := List.map (λ nd, Plane (fst nd) (snd nd)) (ramps x1 x2 y1 y2 dz).
Lemma tpls_ramps : halves tpls = ramps x1 x2 y1 y2 dz.
Proof using. done. Qed.
Lemma heights_ramps p : List.map (λ nd, height (fst nd) (snd nd) p) (ramps x1 x2 y1 y2 dz) =
  [(vx p - wx p) / secant gx; (- vx p - wx p) / secant gx; (vy p - wy p) / secant gy; (- vy p - wy p) / secant gy; vz p - dz; - vz p - dz].
Proof using Hz.
  unfold ramps, lids, wall. cbv zeta. fold gx gy. rewrite !mag_x, !mag_y, !secant_opp by lra. cbn [app List.map fst snd]. pose proof (secant_pos gx). pose proof (secant_pos gy).
  unfold height, wx, wy. cbn [vscale vx vy vz].
  assert (Ex : width dz x1 x2 (vz p) = gx * vz p + (x1 + x2) / 2) by (unfold width, gx; field; lra).
  assert (Ey : width dz y1 y2 (vz p) = gy * vz p + (y1 + y2) / 2) by (unfold width, gy; field; lra).
  rewrite Ex, Ey. assert (K : ∀ (a b : R) l l', a = b → l = l' → a :: l = b :: l') by (by intros a b l l' -> ->). repeat apply K; try reflexivity; try ring; field; lra.
Qed.
Lemma in_tpls pl p : In pl tpls → In (pl_dist pl p) [(vx p - wx p) / secant gx; (- vx p - wx p) / secant gx; (vy p - wy p) / secant gy; (- vy p - wy p) / secant gy; vz p - dz; - vz p - dz].
Proof using Hz.
  intros Hi. rewrite <- heights_ramps. unfold tpls in Hi. apply in_map_iff in Hi as (nd & <- & Hi). apply in_map_iff. exists nd. split; [|done]. rewrite <- height_dist. done.
Qed.
Lemma of_tpls r p : In r [(vx p - wx p) / secant gx; (- vx p - wx p) / secant gx; (vy p - wy p) / secant gy; (- vy p - wy p) / secant gy; vz p - dz; - vz p - dz] → ∃ pl, In pl tpls ∧ pl_dist pl p = r.
Proof using Hz.
  rewrite <- heights_ramps. intros Hi. apply in_map_iff in Hi as (nd & <- & Hi). exists (Plane (fst nd) (snd nd)). split; [unfold tpls; apply in_map_iff; by exists nd|]. rewrite <- height_dist. done.
Qed.
Lemma abs_scale x w s : 0 < s → (x - w) / s <= (Rabs x - w) / s ∧ (- x - w) / s <= (Rabs x - w) / s ∧ ((x - w) / s = (Rabs x - w) / s ∨ (- x - w) / s = (Rabs x - w) / s).
Proof using.
  intros Hs. assert (M : ∀ a b, a <= b → a / s <= b / s) by (intros; unfold Rdiv; apply Rmult_le_compat_r; [apply Rlt_le, Rinv_0_lt_compat|]; done).
  split; [apply M; pose proof (Rle_abs x); lra|]. split; [apply M; pose proof (Rle_abs (- x)); rewrite Rabs_Ropp in *; lra|]. unfold Rabs. destruct (Rcase_abs x); [right|left]; done.
Qed.
Lemma ttop_spec p : (∀ pl, In pl tpls → pl_dist pl p <= ttop p) ∧ ∃ pl, In pl tpls ∧ pl_dist pl p = ttop p.
Proof using Hz.
  pose proof (secant_pos gx). pose proof (secant_pos gy). destruct (abs_scale (vx p) (wx p) (secant gx)) as (X1 & X2 & X3); [lra|]. destruct (abs_scale (vy p) (wy p) (secant gy)) as (Y1 & Y2 & Y3); [lra|].
  destruct (proj1 (ttop_le p (ttop p)) (Rle_refl _)) as (TZ & TX & TY). fold (hX p) in *. fold (hY p) in *.
  assert (Z1 : vz p - dz <= hZ p) by (unfold hZ; pose proof (Rle_abs (vz p)); lra). assert (Z2 : - vz p - dz <= hZ p) by (unfold hZ; pose proof (Rle_abs (- vz p)); rewrite Rabs_Ropp in *; lra).
  assert (Z3 : vz p - dz = hZ p ∨ - vz p - dz = hZ p) by (unfold hZ, Rabs; destruct (Rcase_abs (vz p)); [right|left]; done).
  split.
  - intros pl Hi. apply (in_tpls pl p) in Hi. cbn [In] in Hi. destruct Hi as [<-|[<-|[<-|[<-|[<-|[<-|[]]]]]]]; lra.
  - apply of_tpls. assert (E : ttop p = hZ p ∨ ttop p = hX p ∨ ttop p = hY p) by (unfold ttop, Rmax; repeat destruct (Rle_dec _ _); auto).
    cbn [In]. destruct E as [E|[E|E]]; rewrite E; intuition auto.
Qed.
Lemma unit_ramps : unit_normals (ramps x1 x2 y1 y2 dz).
Proof using Hz.
  assert (U : ∀ v e, 0 < vmag v → vdot (fst (wall v e)) (fst (wall v e)) = 1).
  { intros v e Hv. unfold wall. cbn [fst]. pose proof (vmag_sqr v) as E. replace (vdot (vscale (1 / vmag v) v) (vscale (1 / vmag v) v)) with (vdot v v / (vmag v * vmag v)) by (unfold vdot; cbn [vscale vx vy vz]; field; lra). rewrite <- E. field; lra. }
  pose proof (secant_pos (- gx)). pose proof (secant_pos (- gy)).
  intros n k Hi. unfold ramps, lids in Hi. cbv zeta in Hi. fold gx gy in Hi. cbn [app In] in Hi.
  destruct Hi as [E|[E|[E|[E|[E|[E|[]]]]]]]; try (injection E as <- <-; unfold vdot; cbn [vx vy vz]; ring); apply (f_equal fst) in E; cbn [fst] in E; rewrite <- E; apply U; ((rewrite mag_x by lra) || (rewrite mag_y by lra)); lra.
Qed.
Lemma short_ramps : short_normals (ramps x1 x2 y1 y2 dz).
Proof using Hz. intros n k Hi. rewrite (unit_ramps n k Hi). lra. Qed.
Lemma top_cut p : ttop p <= 0 ↔ cut (ramps x1 x2 y1 y2 dz) p.
Proof using Hz.
  destruct (ttop_spec p) as (A & pl & Hi & B). rewrite <- tpls_ramps, cut_iff. split; [intros H q Hq; specialize (A _ Hq); lra|]. intros H. specialize (H _ Hi). lra.
Qed.
Lemma top_cut_open p : ttop p < 0 ↔ cut_open (ramps x1 x2 y1 y2 dz) p.
Proof using Hz.
  destruct (ttop_spec p) as (A & pl & Hi & B). rewrite <- tpls_ramps. unfold cut_open. split.
  - intros H n k Hq. apply in_halves in Hq. specialize (A _ Hq). rewrite <- height_dist in A. cbn [pl_n pl_d] in A. lra.
  - intros H. specialize (H (pl_n pl) (pl_d pl)). rewrite height_dist in H. destruct pl. rewrite <- B. apply H. by apply in_halves.
Qed.
(** Nonnegative widths inside. *)
Lemma width_nonneg a b z : 0 <= a → 0 <= b → Rabs z <= dz → 0 <= width dz a b z.
Proof using Hz. intros Ha Hb H. apply abs_two in H. unfold width. apply div_nonneg; [|lra]. assert (0 <= (dz - z) * a) by (apply Rmult_le_pos; lra). assert (0 <= (dz + z) * b) by (apply Rmult_le_pos; lra). lra. Qed.
Lemma width_same a z : width dz a a z = a.
Proof using Hz. unfold width. field. lra. Qed.
Lemma width_top a b : width dz a b dz = b.
Proof using Hz. unfold width. field. lra. Qed.
Lemma width_low a b : width dz a b (- dz) = a.
Proof using Hz. unfold width. field. lra. Qed.
End Solid.
