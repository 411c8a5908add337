(** DistanceToOut of tubes. *)
From Coq Require Import Reals Lra Lia Bool ZArith Psatz.
From stdpp Require Import base list option numbers tactics.
From Verif Require Import Real3 AABBModel BoxModel BoxProofs PlanesModel PlanesProofs ConeModel ConeSpec ConeProofs WedgeModel WedgeSpec WedgeProofs WedgeProofs2 TubeModel TubeSpec TubeProofs TubeProofs2.
Import stdpp.list.
Local Open Scope R_scope.

Lemma absorbed x : x = 0 ∨ kAbsorb <= Rabs x → x ≠ 0 → nz x = x.
Proof. intros [H|H] K; [done|]. by apply nz_large. Qed.
Lemma sqrt_sq x : 0 <= x → R_sqrt.sqrt x * R_sqrt.sqrt x = x ∧ 0 <= R_sqrt.sqrt x.
Proof. intros H. split; [by apply sqrt_sqrt|apply sqrt_pos]. Qed.

Lemma one_pi (a : angle_type) : a = kOnePi ∨ a ≠ kOnePi.
Proof. destruct a; auto; by right. Qed.
Lemma one_pi_not {A} (a : angle_type) (x y : A) : a ≠ kOnePi → match a with kOnePi => x | _ => y end = y.
Proof. by destruct a. Qed.
Lemma quad n r A x : 0 < n → 0 <= r → 0 <= A → r * r - A * A = n * x → (r <= A ↔ x <= 0) ∧ (A <= r ↔ 0 <= x) ∧ (A < r ↔ 0 < x) ∧ (r < A ↔ x < 0).
Proof.
  intros Hn Hr HA E. assert (P : 0 < x → A < r). { intros K. assert (0 < n * x) by (by apply Rmult_lt_0_compat). nra. }
  assert (Q : x < 0 → r < A). { intros K. assert (0 < n * - x) by (apply Rmult_lt_0_compat; lra). nra. }
  assert (W : x = 0 → r = A). { intros ->. nra. }
  repeat split; intros; (destruct (Rtotal_order x 0) as [Hx|[Hx|Hx]]; [specialize (Q Hx)|specialize (W Hx)|specialize (P Hx)]; lra).
Qed.
Lemma sq_sign v De : 0 <= De → (v * v - De <= 0 ↔ - R_sqrt.sqrt De <= v <= R_sqrt.sqrt De) ∧ (v * v - De < 0 ↔ - R_sqrt.sqrt De < v < R_sqrt.sqrt De).
Proof.
  intros H. destruct (sqrt_sq De H) as [E P]. set (r := R_sqrt.sqrt De) in *. clearbody r. subst De. repeat split; intros; nra.
Qed.
Lemma root_eq a c x : c = 0 ∨ kAbsorb <= Rabs c → c ≠ 0 → a + x * c = 0 ↔ x = - a / nz c.
Proof. intros H K. rewrite absorbed by done. split; [intros E; replace (- a) with (x * c) by lra; field; done|intros ->; field; done]. Qed.
Lemma above_tol x y : 0 <= x → 0 <= y → - kHalfTolerance < x * y.
Proof. intros. pose proof kHalfTolerance_pos. assert (0 <= x * y) by (by apply Rmult_le_pos). lra. Qed.
Lemma fits_pi k m d : tube_fits k m d → sector_type k = kOnePi → d = PI.
Proof. intros H E. destruct k as [|a|a]; [discriminate|destruct H as [_ H]|]; destruct a; cbn in *; try discriminate; done. Qed.
Lemma fits_small k m d : tube_fits k m d → sector_type k = kSmallerThanPi → d < PI.
Proof. intros H E. destruct k as [|a|a]; [discriminate|destruct H as [_ H]|]; destruct a; cbn in *; try discriminate; done. Qed.
Lemma fits_pos k m d : tube_fits k m d → PI < d → match sector_type k with kSmallerThanPi | kOnePi => false | _ => true end = true.
Proof. intros H E. destruct k as [|a|a]; [done|destruct H as [_ H]|]; destruct a; cbn in *; try done; lra. Qed.
Lemma near_pos a c e : 0 < a → 0 < e → ∃ v, 0 < v < e ∧ 0 < a + v * c.
Proof.
  intros Ha He. set (w := a / (2 * (1 + Rabs c))). pose proof (Rabs_pos c) as Hc. assert (Hw : w * (2 * (1 + Rabs c)) = a) by (unfold w; field; lra).
  assert (W : 0 < w) by (unfold w; apply Rdiv_lt_0_compat; lra). exists (Rmin (e / 2) w). pose proof (Rmin_l (e / 2) w) as L1. pose proof (Rmin_r (e / 2) w) as L2. assert (L3 : 0 < Rmin (e / 2) w) by (apply Rmin_pos; lra). set (v := Rmin (e / 2) w) in *. clearbody v w.
  split; [lra|]. pose proof (Rle_abs (- c)) as K. rewrite Rabs_Ropp in K. nra.
Qed.
Lemma sq_exceeds x A : 0 <= x → 0 <= A → A * A < x * x → A < x.
Proof. intros. nra. Qed.
Section Out.
Variables (inf : R) (k : tube_type) (m M Z s d : R).
Hypothesis Hm : 0 <= m < M.
Hypothesis HZ : 0 < Z.
Hypothesis Hd : 0 < d <= 2 * PI.
Hypothesis Hk : tube_fits k m d.
Let t := tb m M Z s d.
Variables (p dir : v3).
Let q (u : R) : v3 := along p dir u.
Let C := tube_closed m M Z s d.
Let rsq := vx p * vx p + vy p * vy p.
Let rdotn := vx dir * vx p + vy dir * vy p.
Let inv := 1 / nz (1 - vz dir * vz dir).
Let b := inv * rdotn.
Let tz := if rltb (vz dir) 0 then (- Z - vz p) * (1 / nz (vz dir)) else (Z - vz p) * (1 / nz (vz dir)).
Let pos := match sector_type k with kSmallerThanPi | kOnePi => false | _ => true end.
Let ny2 := match sector_type k with kOnePi => sin (s + d) | _ => - cos (s + d) end.
Definition out_cand (x : R) : Prop :=
  (vz dir ≠ 0 ∧ x = tz) ∨ (0 < m ∧ circle_hit k t false false b ((rsq - m * m) * inv) p dir = Some x) ∨ circle_hit k t true false b ((rsq - M * M) * inv) p dir = Some x ∨
  (d < 2 * PI ∧ sector_type k ≠ kOnePi ∧ plane_hit t pos false (cos s) (sin s) (- sin s) (cos s) p dir = Some x) ∨
  (d < 2 * PI ∧ plane_hit t pos false (cos (s + d)) (sin (s + d)) (sin (s + d)) ny2 p dir = Some x).
Lemma to_out_far : Z + kHalfTolerance < Rabs (vz p) ∨ M * M + 2 * kTolerance * M < rho p * rho p ∨ (0 < m ∧ rho p * rho p < m * m - 2 * kTolerance * m) ∨
  (d < 2 * PI ∧ ¬ sector s d (vx p) (vy p) ∧ ¬ on_side d s (vx p) (vy p)) → tube_to_out inf k t p dir = -1.
Proof.
  intros H. unfold tube_to_out. cbv zeta. unfold t. rewrite hole_eq, phi_eq by done. fold t. rewrite r2_rho. change (tb_z t) with Z. change (tb_rmax2 t) with (M * M). change (tb_rmax t) with M. change (tb_rmin2 t) with (m * m). change (tb_rmin t) with m. change (tb_wedge t) with (mk_wedge d s).
  destruct (rltb_spec (Z - Rabs (vz p)) (- kHalfTolerance)); [done|]. destruct H as [H|H]; [exfalso; lra|].
  destruct (rgtb_spec (rho p * rho p - M * M) (2 * kTolerance * M)); [done|]. destruct H as [H|H]; [exfalso; lra|].
  destruct H as [[H0 H]|H].
  - destruct (rgtb_spec m 0); [|exfalso; lra]. destruct (rltb_spec (rho p * rho p - m * m) (-2 * kTolerance * m)); [done|exfalso; lra].
  - destruct (rgtb m 0 && _); [done|]. destruct H as (H & A & B). destruct (rltb_spec d (2 * PI)); [|exfalso; lra]. cbn [andb].
    pose proof (with_boundary d s (vx p) (vy p) Hd) as Hb. unfold contains_with_boundary in Hb. destruct (snd (wedge_kernel (mk_wedge d s) true (vx p) (vy p))); [done|]. destruct Hb as [Hb _]. destruct (Hb eq_refl); contradiction.
Qed.
Hypothesis Hin : C p.
Lemma to_out_least : (∀ x, out_cand x → tube_to_out inf k t p dir <= x) ∧ tube_to_out inf k t p dir <= inf ∧ (tube_to_out inf k t p dir = inf ∨ out_cand (tube_to_out inf k t p dir)).
Proof.
  pose proof kTolerance_pos. pose proof kHalfTolerance_pos. destruct Hin as (Cz & Cr & Cs). pose proof (r2_rho p) as Er. pose proof (rho_nonneg p).
  set (D := tube_to_out inf k t p dir).
  set (D0 := if negb (reqb (vz dir) 0) && rltb tz inf then tz else inf).
  set (D1 := if rgtb m 0 then shorter D0 (circle_hit k t false false b ((rsq - m * m) * inv) p dir) else D0).
  set (D2 := shorter D1 (circle_hit k t true false b ((rsq - M * M) * inv) p dir)).
  set (c1 := plane_hit t pos false (cos s) (sin s) (- sin s) (cos s) p dir).
  set (c2 := plane_hit t pos false (cos (s + d)) (sin (s + d)) (sin (s + d)) ny2 p dir).
  assert (ED : D = if rltb d (2 * PI) then match sector_type k with kOnePi => shorter D2 c2 | _ => shorter (shorter D2 c1) c2 end else D2).
  { unfold D, tube_to_out. cbv zeta. unfold t. rewrite hole_eq, phi_eq by done. fold t. change (tb_z t) with Z. change (tb_rmax2 t) with (M * M). change (tb_rmax t) with M. change (tb_rmin2 t) with (m * m). change (tb_rmin t) with m. change (tb_wedge t) with (mk_wedge d s).
    destruct (rltb_spec (Z - Rabs (vz p)) (- kHalfTolerance)); [exfalso; lra|]. fold rsq rdotn.
    destruct (rgtb_spec (rsq - M * M) (2 * kTolerance * M)); [exfalso; unfold rsq in *; nra|].
    assert (N : rgtb m 0 && rltb (if rgtb m 0 then rsq - m * m else rsq) (-2 * kTolerance * m) = false).
    { destruct (rgtb_spec m 0); [|done]. cbn. destruct (rltb_spec (rsq - m * m) (-2 * kTolerance * m)); [exfalso; unfold rsq in *; nra|done]. }
    rewrite N.
    assert (W : rltb d (2 * PI) && snd (wedge_kernel (mk_wedge d s) true (vx p) (vy p)) = false).
    { destruct (rltb_spec d (2 * PI)) as [K|K]; [|done]. cbn [andb]. specialize (Cs K). pose proof (with_boundary d s (vx p) (vy p) Hd) as Hb. unfold contains_with_boundary in Hb. destruct (snd (wedge_kernel (mk_wedge d s) true (vx p) (vy p))); [|done]. exfalso. assert (negb true = true) by (apply Hb; by left). done. }
    rewrite W. fold tz inv b. assert (EH : (if rgtb m 0 then shorter D0 (circle_hit k t false false b ((if rgtb m 0 then rsq - m * m else rsq) * inv) p dir) else D0) = D1) by (unfold D1; destruct (rgtb m 0); done).
    fold D0. rewrite EH. fold D2. destruct (rltb d (2 * PI)); cbn [negb]; [|done].
    change (tb_a1x t) with (cos s). change (tb_a1y t) with (sin s). change (tb_a2x t) with (cos (s + d)). change (tb_a2y t) with (sin (s + d)).
    change (wd_n1x (mk_wedge d s)) with (- sin s). change (wd_n1y (mk_wedge d s)) with (cos s). change (wd_n2x (mk_wedge d s)) with (sin (s + d)). change (wd_n2y (mk_wedge d s)) with (- cos (s + d)).
    unfold c1, c2, pos, ny2. destruct (sector_type k); done. }
  assert (A0 : D0 <= inf ∧ (vz dir ≠ 0 → D0 <= tz) ∧ (D0 = inf ∨ (vz dir ≠ 0 ∧ D0 = tz))).
  { unfold D0. destruct (reqb_spec (vz dir) 0); cbn [negb andb]; [split; [lra|]; split; [done|by left]|]. destruct (rltb_spec tz inf).
    - split; [lra|]. split; [intros; lra|]. right. done.
    - split; [lra|]. split; [intros; lra|]. left. done. }
  assert (A1 : D1 <= D0 ∧ (∀ x, 0 < m → circle_hit k t false false b ((rsq - m * m) * inv) p dir = Some x → D1 <= x) ∧ (D1 = D0 ∨ (0 < m ∧ circle_hit k t false false b ((rsq - m * m) * inv) p dir = Some D1))).
  { unfold D1. destruct (rgtb_spec m 0); [|split; [lra|]; split; [intros; exfalso; lra|by left]]. split; [apply (shorter_le _ _ 0)|]. split; [intros x _; apply shorter_le|]. destruct (shorter_one D0 (circle_hit k t false false b ((rsq - m * m) * inv) p dir)); [by left|right; split; [lra|done]]. }
  destruct A0 as (A01 & A02 & A03). destruct A1 as (A11 & A12 & A13).
  assert (A2 : ∀ x, circle_hit k t true false b ((rsq - M * M) * inv) p dir = Some x → D2 <= x) by (intros; by apply shorter_le).
  assert (A2' : D2 <= D1) by (apply (shorter_le _ _ 0)). assert (A2'' := shorter_one D1 (circle_hit k t true false b ((rsq - M * M) * inv) p dir)). fold D2 in A2''.
  assert (B2 : D2 = inf ∨ out_cand D2).
  { destruct A2'' as [E|E]; [|right; right; right; by left]. rewrite E. destruct A13 as [F|F]; [|right; right; by left]. rewrite F. destruct A03 as [G|G]; [by left|right; by left]. }
  assert (B2' : ∀ x, (vz dir ≠ 0 ∧ x = tz) ∨ (0 < m ∧ circle_hit k t false false b ((rsq - m * m) * inv) p dir = Some x) ∨ circle_hit k t true false b ((rsq - M * M) * inv) p dir = Some x → D2 <= x).
  { intros x [(V & ->)|[(V & E)|E]]; [specialize (A02 V); lra|specialize (A12 x V E); lra|by apply A2]. }
  assert (S1 := shorter_le D2 c1). assert (S1' := shorter_one D2 c1). assert (S2 := shorter_le (shorter D2 c1) c2). assert (S2' := shorter_one (shorter D2 c1) c2). assert (S3 := shorter_le D2 c2). assert (S3' := shorter_one D2 c2).
  assert (CASES : D = D2 ∧ ¬ d < 2 * PI ∨ d < 2 * PI ∧ sector_type k = kOnePi ∧ D = shorter D2 c2 ∨ d < 2 * PI ∧ sector_type k ≠ kOnePi ∧ D = shorter (shorter D2 c1) c2).
  { rewrite ED. destruct (rltb_spec d (2 * PI)); [right|by left]. destruct (one_pi (sector_type k)) as [E|E]; [left; rewrite E; done|right]. split; [done|]. split; [done|]. by rewrite one_pi_not. }
  clear ED. unfold out_cand at 1. fold c1 c2. destruct CASES as [(-> & N)|[(N & Ek & ->)|(N & Ek & ->)]].
  - split; [|split; [lra|done]]. intros x [E|[E|[E|[(E & _)|(E & _)]]]]; try (exfalso; clear - E N; lra); apply B2'; first [left; exact E|right; left; exact E|right; right; exact E].
  - split; [|split].
    + intros x [E|[E|[E|[(_ & E & _)|(_ & E)]]]]; try done; try (by apply S3); specialize (S3 x); destruct S3; eapply Rle_trans; eauto; apply B2'; first [left; exact E|right; left; exact E|right; right; exact E].
    + specialize (S3 0). lra.
    + destruct S3' as [E|E]; [rewrite E; exact B2|]. right; right; right; right; right. split; [exact N|exact E].
  - split; [|split].
    + intros x E. destruct (S1 x) as [Q1 Q2]. destruct (S2 x) as [Q3 Q4]. destruct E as [E|[E|[E|[(_ & _ & E)|(_ & E)]]]]; [| | | |by apply Q4].
      4: specialize (Q2 E); lra. all: assert (D2 <= x) by (apply B2'; first [left; exact E|right; left; exact E|right; right; exact E]); lra.
    + destruct (S1 0), (S2 0). lra.
    + destruct S2' as [E|E]; [rewrite E|right; right; right; right; right; split; [exact N|exact E]]. destruct S1' as [F|F]; [rewrite F; exact B2|right; right; right; right; left; split; [exact N|]; split; [exact Ek|exact F]].
Qed.
(** * Stays until the answer, leaves then *)
Hypothesis Hu : vdot dir dir = 1.
Hypothesis Hz0 : vz dir = 0 ∨ kAbsorb <= Rabs (vz dir).
Hypothesis Hn0 : 1 - vz dir * vz dir = 0 ∨ kAbsorb <= Rabs (1 - vz dir * vz dir).
Hypothesis Hs0 : d < 2 * PI → (side s (vx dir) (vy dir) = 0 ∨ kAbsorb <= Rabs (side s (vx dir) (vy dir))) ∧ (side (s + d) (vx dir) (vy dir) = 0 ∨ kAbsorb <= Rabs (side (s + d) (vx dir) (vy dir))).
Hypothesis Htan : 0 < m → m + 2 * kTolerance < rho p ∨ rdotn <= 0.
Hypothesis Hpar : vx dir = 0 → vy dir = 0 → 4 * Z * Z * kTiny < M * M - rho p * rho p.
Hypothesis Hbig : PI < d < 2 * PI → (0 <= side s (vx p) (vy p) ∨ side s (vx p) (vy p) <= - kHalfTolerance) ∧ (side (s + d) (vx p) (vy p) <= 0 ∨ kHalfTolerance <= side (s + d) (vx p) (vy p)) ∧
  (m = 0 → ∀ u, rho (q u) ≠ 0).
Hypothesis Hpi : sector_type k = kOnePi → (sin (s + d) * (vx dir + vy dir) < 0 ↔ 0 < side (s + d) (vx dir) (vy dir)).
Hypothesis Hinf : 2 ^ 24 * M + 2 * Z < inf.
Let n := vx dir * vx dir + vy dir * vy dir.
Lemma n_eq : 1 - vz dir * vz dir = n.
Proof. unfold n. unfold vdot in Hu. lra. Qed.
Lemma n_nonneg : 0 <= n.
Proof. unfold n. clear. nra. Qed.
Lemma flat : n = 0 → vx dir = 0 ∧ vy dir = 0 ∧ vz dir * vz dir = 1.
Proof. intros H. pose proof n_eq as N. unfold n in *. split; [clear - H; nra|]. split; [clear - H; nra|]. lra. Qed.
Lemma inv_eq : n ≠ 0 → inv = 1 / n.
Proof. intros H. unfold inv. rewrite absorbed; [by rewrite n_eq|done|by rewrite n_eq]. Qed.
Lemma square_eq A u : n ≠ 0 → rho (q u) * rho (q u) - A * A = n * ((u + b) * (u + b) - (b * b - (rsq - A * A) * inv)).
Proof.
  intros H. pose proof n_nonneg. pose proof (r2_square p dir A n u ltac:(lra) eq_refl) as E. cbv zeta in E. unfold q. rewrite E. unfold b, rsq, rdotn. rewrite inv_eq, r2_rho by done.
  replace (vx dir * vx p + vy dir * vy p) with (vx p * vx dir + vy p * vy dir) by ring. done.
Qed.
Lemma rho_sign A u : n ≠ 0 → 0 <= A → let x := (u + b) * (u + b) - (b * b - (rsq - A * A) * inv) in
  (rho (q u) <= A ↔ x <= 0) ∧ (A <= rho (q u) ↔ 0 <= x) ∧ (A < rho (q u) ↔ 0 < x) ∧ (rho (q u) < A ↔ x < 0).
Proof. intros N HA x. pose proof n_nonneg. apply (quad n); [lra|apply rho_nonneg|done|]. by apply square_eq. Qed.
Lemma tz_spec : vz dir ≠ 0 → 0 <= tz ∧ (∀ u, Rabs (vz (q u)) <= Z → u <= tz) ∧ (∀ u, tz < u → Z < Rabs (vz (q u))) ∧ Rabs (vz p + tz * vz dir) <= Z.
Proof.
  intros H. destruct Hin as (Cz & _). apply abs_le in Cz. unfold tz. rewrite absorbed by done. change (vz (q ?u)) with (vz p + u * vz dir). destruct (rltb_spec (vz dir) 0) as [K|K].
  - set (r := (- Z - vz p) * (1 / vz dir)). assert (E : r * vz dir = - Z - vz p) by (unfold r; field; lra). clearbody r.
    split; [clear - K H Cz E; nra|]. split; [|split].
    + intros u Hu'. change (vz (q u)) with (vz p + u * vz dir) in *. apply abs_le in Hu'. clear - K H Hu' E; nra.
    + intros u Hu'. change (vz (q u)) with (vz p + u * vz dir) in *. assert (X : vz p + u * vz dir < - Z) by (clear - K H Hu' E; nra). rewrite Rabs_left; lra.
    + rewrite E. replace (vz p + (- Z - vz p)) with (- Z) by ring. rewrite Rabs_left; lra.
  - set (r := (Z - vz p) * (1 / vz dir)). assert (E : r * vz dir = Z - vz p) by (unfold r; field; lra). clearbody r.
    split; [clear - K H Cz E; nra|]. split; [|split].
    + intros u Hu'. change (vz (q u)) with (vz p + u * vz dir) in *. apply abs_le in Hu'. clear - K H Hu' E; nra.
    + intros u Hu'. change (vz (q u)) with (vz p + u * vz dir) in *. assert (X : Z < vz p + u * vz dir) by (clear - K H Hu' E; nra). rewrite Rabs_right; lra.
    + rewrite E. replace (vz p + (Z - vz p)) with Z by ring. rewrite Rabs_right; lra.
Qed.
Lemma q0 : q 0 = p.
Proof. apply v3_eq; unfold q, along, vadd, vscale; cbn; ring. Qed.
Lemma rsq_rho : rsq = rho p * rho p.
Proof. apply r2_rho. Qed.
(** The larger meeting with the outer circle. *)
Lemma outer_spec : n ≠ 0 → ∃ x, circle_hit k t true false b ((rsq - M * M) * inv) p dir = Some x ∧ 0 <= x <= 2 ^ 24 * M ∧ rho (q x) = M ∧ ∀ u, x < u → M < rho (q u).
Proof.
  intros H. pose proof n_nonneg. destruct Hin as (_ & Cr & _). pose proof kTolerance_pos. pose proof (rho_nonneg p).
  set (De := b * b - (rsq - M * M) * inv). set (x := - b + R_sqrt.sqrt De).
  assert (Hn : 0 < n) by lra.
  assert (RS : ∀ u, (rho (q u) <= M ↔ (u + b) * (u + b) - De <= 0) ∧ (M <= rho (q u) ↔ 0 <= (u + b) * (u + b) - De) ∧ (M < rho (q u) ↔ 0 < (u + b) * (u + b) - De) ∧ (rho (q u) < M ↔ (u + b) * (u + b) - De < 0)) by (intros u; apply rho_sign; [done|lra]).
  assert (B : (0 + b) * (0 + b) - De <= 0) by (apply RS; rewrite q0; lra).
  assert (D0 : 0 <= De) by (pose proof (Rle_0_sqr (0 + b)) as Q; unfold Rsqr in Q; lra). destruct (sqrt_sq De D0) as [Q1 Q2].
  apply sq_sign in B; [|done]. set (r := R_sqrt.sqrt De) in *.
  assert (X0 : 0 <= x) by (unfold x; lra). assert (Exb : x + b = r) by (unfold x; ring).
  assert (Rx : rho (q x) = M). { apply Rle_antisym; apply RS; rewrite Exb; lra. }
  exists x. split.
  - apply circle_some; try done. fold De. split; [destruct (Rle_lt_or_eq_dec 0 De D0); [by left|right; split; [done|lra]]|]. split; [done|]. split; [lra|done].
  - split; [split; [done|]|split; [done|]].
    + assert (N : kAbsorb <= n). { destruct Hn0 as [N|N]; [rewrite n_eq in N; lra|]. rewrite n_eq, Rabs_right in N; lra. }
      assert (L : x * x * n <= 4 * M * M).
      { assert (Y1 : (vx (q x) - vx p) * (vx (q x) - vx p) + (vy (q x) - vy p) * (vy (q x) - vy p) = x * x * n) by (unfold q, along, vadd, vscale, n; cbn; ring).
        rewrite <- Y1. pose proof (r2_rho (q x)) as R1. pose proof (r2_rho p) as R2. rewrite Rx in R1. set (a := vx (q x)) in *. set (a' := vy (q x)) in *.
        assert (R3 : rho p * rho p <= M * M) by (apply sqr_le; lra). clear - R1 R2 R3.
        pose proof (Rle_0_sqr (a + vx p)). pose proof (Rle_0_sqr (a' + vy p)). unfold Rsqr in *. clearbody a a'.
        replace ((a - vx p) * (a - vx p) + (a' - vy p) * (a' - vy p)) with (2 * (a * a + a' * a') + 2 * (vx p * vx p + vy p * vy p) - (a + vx p) * (a + vx p) - (a' + vy p) * (a' + vy p)) by ring. rewrite R1, R2. lra. }
      assert (K : 2 ^ 46 * kAbsorb = 1) by (unfold kAbsorb; field). clear - K N L X0 Hm. clearbody x n.
      assert (x * x <= 4 * M * M * 2 ^ 46) by nra.
      assert ((2 ^ 24 * M) * (2 ^ 24 * M) = 4 * M * M * 2 ^ 46) by ring. apply sqr_le; [done|apply Rmult_le_pos; lra|lra].
    + intros u Hx. apply RS. assert (HR : r < u + b) by lra. clear - HR Q1 Q2. clearbody r De b. nra.
Qed.
Lemma out_stays u : 0 <= u <= tube_to_out inf k t p dir → C (q u).
Proof.
  intros [U0 UD]. destruct to_out_least as (L & _ & _). pose proof Hin as (Cz & Cr & Cs). pose proof n_nonneg as Nn. pose proof kTolerance_pos. pose proof kHalfTolerance_pos as Kh.
  assert (HZu : Rabs (vz (q u)) <= Z).
  { apply Rnot_lt_le. intros K. assert (Vz : vz dir ≠ 0). { intros E. change (vz (q u)) with (vz p + u * vz dir) in K. rewrite E, Rmult_0_r, Rplus_0_r in K. lra. }
    destruct (tz_spec Vz) as (_ & T2 & T3 & Hq). assert (Hut : u <= tz). { eapply Rle_trans; [exact UD|]. apply L. left. done. }
    apply abs_le in Hq, Cz. change (vz (q u)) with (vz p + u * vz dir) in K. generalize dependent tz. intros tz' T2 T3 Hq Hut.
    revert K. apply Rle_not_lt. apply Rabs_le. clear - Hq Cz U0 Hut. destruct (Rle_dec 0 (vz dir)); nra. }
  assert (HM : rho (q u) <= M).
  { apply Rnot_lt_le. intros K. destruct (Req_dec n 0) as [N|N].
    - destruct (flat N) as (F1 & F2 & _). assert (rho (q u) = rho p). { unfold rho, q, along, vadd, vscale; cbn. rewrite F1, F2, !Rmult_0_r, !Rplus_0_r. done. } lra.
    - destruct (outer_spec N) as (x & Hx & X0 & X1 & X2). assert (Hux : u <= x). { eapply Rle_trans; [exact UD|]. apply L. right; right; left. done. }
      destruct (rho_sign M u N ltac:(lra)) as (_ & _ & Y & _). destruct (rho_sign M 0 N ltac:(lra)) as (Y0 & _). destruct (rho_sign M x N ltac:(lra)) as (Y1 & _). rewrite q0 in Y0. rewrite X1 in Y1.
      set (De := b * b - (rsq - M * M) * inv) in *. apply Y in K. assert (Z0 : (0 + b) * (0 + b) - De <= 0) by (apply Y0; lra). assert (Z1 : (x + b) * (x + b) - De <= 0) by (apply Y1; lra).
      assert (D0 : 0 <= De) by (pose proof (Rle_0_sqr (0 + b)) as Q; unfold Rsqr in Q; lra).
      apply sq_sign in Z0, Z1; [|done|done]. assert (ZZ : (u + b) * (u + b) - De <= 0) by (apply sq_sign; lra). lra. }
  assert (Hmu : m <= rho (q u)).
  { apply Rnot_lt_le. intros K. pose proof (rho_nonneg (q u)) as R0. assert (M0 : 0 < m) by lra. destruct (Req_dec n 0) as [N|N].
    - destruct (flat N) as (F1 & F2 & _). assert (rho (q u) = rho p). { unfold rho, q, along, vadd, vscale; cbn. rewrite F1, F2, !Rmult_0_r, !Rplus_0_r. done. } lra.
    - destruct (rho_sign m u N ltac:(lra)) as (_ & _ & _ & Y). destruct (rho_sign m 0 N ltac:(lra)) as (_ & Y0 & _). rewrite q0 in Y0. set (De := b * b - (rsq - m * m) * inv) in *.
      apply Y in K. assert (Z0 : 0 <= (0 + b) * (0 + b) - De) by (apply Y0; lra). assert (D0 : 0 < De) by (pose proof (Rle_0_sqr (u + b)) as Q; unfold Rsqr in Q; lra).
      apply sq_sign in K; [|lra]. destruct (sqrt_sq De ltac:(lra)) as [Q1 Q2]. set (r := R_sqrt.sqrt De) in *.
      set (x := - b - r). assert (XA : x < u) by (unfold x; lra). assert (X0 : 0 <= x) by (unfold x; clear - K Z0 Q1 Q2 U0; clearbody r De b; nra).
      assert (Hx : circle_hit k t false false b ((rsq - m * m) * inv) p dir = Some x). { apply circle_some; try done. fold De. fold r. split; [by left|]. split; [done|]. split; [lra|done]. }
      assert (tube_to_out inf k t p dir <= x) by (apply L; right; left; done). lra. }
  split; [done|]. split; [done|]. intros Hp. specialize (Cs Hp). destruct (Hs0 Hp) as [G1 G2].
  destruct (Rlt_dec d (2 * PI)) as [_|]; [|lra].
  assert (DEC : sector s d (vx (q u)) (vy (q u)) ∨ ¬ sector s d (vx (q u)) (vy (q u))).
  { pose proof (wedge_contains_sector d s (vx (q u)) (vy (q u)) Hd) as W. destruct (wedge_contains _ _ _); [left; by apply W|right; intros Q; apply W in Q; done]. }
  destruct DEC as [|NS]; [done|exfalso].
  destruct (leave_at s d (vx p) (vy p) (vx dir) (vy dir) u) as (x & Hx & HX); try done; [lra|].
  assert (XE : x ≠ u).
  { intros ->. apply NS. destruct HX as [(A & _ & B)|(A & _ & B)]; destruct (on_line _ _ _ A) as [O1 O2]; [exists s|exists (s + d)]; (split; [lra|]); eexists; (split; [exact B|]); split; [exact O1|exact O2|exact O1|exact O2]. }
  assert (PL : tube_to_out inf k t p dir <= x); [|lra]. apply L. unfold out_cand.
  assert (END : side (s + d) (vx p + x * vx dir) (vy p + x * vy dir) = 0 → 0 < side (s + d) (vx dir) (vy dir) → (pos = true → 0 <= ahead (s + d) (vx p + x * vx dir) (vy p + x * vy dir)) →
    plane_hit t pos false (cos (s + d)) (sin (s + d)) (sin (s + d)) ny2 p dir = Some x).
  { intros A B Ca. apply plane_some. cbv zeta. rewrite side_along in A.
    assert (Dn : vx dir * sin (s + d) + vy dir * ny2 < 0).
    { unfold ny2. destruct (one_pi (sector_type k)) as [E|E]; [|rewrite one_pi_not by done; unfold side in B; lra]. apply Hpi in B; [|done]. rewrite E. lra. }
    split; [done|]. split; [apply root_eq; [done|lra|done]|]. split; [|exact Ca].
    apply above_tol; [lra|apply Rabs_pos]. }
  destruct HX as [(A & B & Ca)|(A & B & Ca)].
  - destruct (one_pi (sector_type k)) as [Ek|Ek].
    + right; right; right; right. split; [done|]. pose proof (fits_pi k m d Hk Ek) as Ed. apply END.
      * rewrite Ed, side_flip, A. ring.
      * rewrite Ed, side_flip. by apply Ropp_0_gt_lt_contravar.
      * unfold pos. rewrite Ek. done.
    + right; right; right; left. split; [done|]. split; [done|]. apply plane_some; cbv zeta; rewrite side_along in A.
      assert (Dn : vx dir * - sin s + vy dir * cos s = side s (vx dir) (vy dir)) by (unfold side; ring). rewrite Dn.
      split; [done|]. split; [apply root_eq; [done|lra|done]|]. split; [apply above_tol; [lra|apply Rabs_pos]|intros _; exact Ca].
  - right; right; right; right. split; [done|]. apply END; try done.
Qed.
Lemma flat_circle c : n = 0 → b * b - c * inv = - c / kTiny.
Proof.
  intros N. destruct (flat N) as (F1 & F2 & F3). unfold b, rdotn. rewrite F1, F2. unfold inv. rewrite F3. replace (1 - 1) with 0 by ring. rewrite nz_zero. pose proof kTiny_pos. field. lra.
Qed.
Lemma inner_spec x : 0 < m → circle_hit k t false false b ((rsq - m * m) * inv) p dir = Some x → n ≠ 0 ∧ 0 <= x ∧ ∃ r, 0 < r ∧ ∀ u, x < u < x + r → rho (q u) < m.
Proof.
  intros M0 H. apply circle_some in H; try done. destruct H as ([H|(? & _)] & Ex & Hx & _); [|done]. destruct Hin as (_ & Cr & _).
  destruct (Req_dec n 0) as [N|N].
  { exfalso. rewrite (flat_circle _ N), rsq_rho in H. pose proof kTiny_pos as KT. pose proof (Rinv_0_lt_compat _ KT) as KI. assert (S : m * m <= rho p * rho p) by (apply sqr_le; lra). unfold Rdiv in H. clear - H KI S. nra. }
  split; [done|]. set (De := b * b - (rsq - m * m) * inv) in *. destruct (sqrt_sq De ltac:(lra)) as [Q1 Q2]. set (r := R_sqrt.sqrt De) in *.
  assert (R0 : 0 < r) by (clear - H Q1 Q2; clearbody r De; nra).
  destruct (rho_sign m 0 N ltac:(lra)) as (_ & Y0 & _). rewrite q0 in Y0. fold De in Y0. assert (Z0 : 0 <= (0 + b) * (0 + b) - De) by (apply Y0; lra).
  assert (Em : rho (q x) = m). { destruct (rho_sign m x N ltac:(lra)) as (Y1 & Y2 & _). fold De in Y1, Y2. assert (E : (x + b) * (x + b) - De = 0) by (rewrite Ex, <- Q1; ring). apply Rle_antisym; [apply Y1|apply Y2]; lra. }
  split.
  - apply Rnot_lt_le. intros NX. assert (B : 0 < b) by (clear - NX Ex Z0 Q1 R0; clearbody r De b; nra).
    assert (RD : 0 < rdotn). { unfold b in B. rewrite inv_eq in B by done. pose proof n_nonneg as Nn. assert (0 < 1 / n) by (apply Rdiv_lt_0_compat; lra). clear - B H0. generalize dependent (1 / n). intros i H1 H2. nra. }
    destruct (Htan M0) as [T|T]; [|lra]. pose proof (rho_dist p (q x)) as RDI. assert (ED : vdist p (q x) = - x).
    { unfold vdist, q, along. replace (vmag _) with (R_sqrt.sqrt (x * x * vdot dir dir)) by (unfold vmag; f_equal; unfold vdot, vsub, vadd, vscale; cbn; ring). rewrite Hu, Rmult_1_r. replace (x * x) with (- x * - x) by ring. apply sqrt_square. lra. }
    rewrite Em, ED in RDI. pose proof (Rle_abs (rho p - m)). lra.
  - exists r. split; [done|]. intros u Hxu. apply (rho_sign m u N); [lra|]. fold De. rewrite <- Q1. assert (- r < u + b < 0) by lra. clear - H0. clearbody r. nra.
Qed.
Lemma flat_outer x : n = 0 → circle_hit k t true false b ((rsq - M * M) * inv) p dir = Some x → 0 <= x ∧ 2 * Z < x.
Proof.
  intros N H. apply circle_some in H; try done. destruct H as (_ & Ex & _ & _). rewrite (flat_circle _ N), rsq_rho in Ex. destruct (flat N) as (F1 & F2 & _).
  assert (B0 : b = 0) by (unfold b, rdotn; rewrite F1, F2; ring). rewrite B0 in Ex. pose proof (Hpar F1 F2) as P. pose proof kTiny_pos as KT.
  set (De := - (rho p * rho p - M * M) / kTiny) in *. assert (E : De * kTiny = M * M - rho p * rho p) by (unfold De; field; lra). clearbody De.
  assert (L : 4 * Z * Z < De) by (clear - E P KT; nra). assert (DP : 0 <= De) by (clear - L; nra). destruct (sqrt_sq De DP) as [Q1 Q2].
  assert (Ex' : x = R_sqrt.sqrt De) by lra. rewrite <- Ex' in Q1, Q2. split; [done|]. apply sq_exceeds; [done|lra|lra].
Qed.
Lemma flat_least : n = 0 → tube_to_out inf k t p dir <= 2 * Z.
Proof.
  intros N. destruct (flat N) as (_ & _ & F3). assert (Vz : vz dir ≠ 0) by (intros E; rewrite E in F3; lra). destruct to_out_least as (L & _ & _).
  eapply Rle_trans; [apply L; left; done|]. destruct (tz_spec Vz) as (T1 & _ & _ & T4). destruct Hin as (Cz & _). apply abs_le in T4, Cz. assert (Q : tz * tz <= (2 * Z) * (2 * Z)).
  { replace (tz * tz) with ((tz * vz dir) * (tz * vz dir)) by (transitivity (tz * tz * (vz dir * vz dir)); [ring|rewrite F3; ring]). assert (W : - (2 * Z) <= tz * vz dir <= 2 * Z) by lra. clear - W. nra. }
  apply sqr_le; [done|lra|done].
Qed.
Lemma out_finite : tube_to_out inf k t p dir < inf.
Proof.
  destruct Hm as [M1 M2]. destruct (Req_dec n 0) as [N|N].
  - pose proof (flat_least N). assert (0 <= 2 ^ 24 * M) by (apply Rmult_le_pos; lra). lra.
  - destruct (outer_spec N) as (x & Hx & X0 & _). destruct to_out_least as (L & _ & _). assert (tube_to_out inf k t p dir <= x) by (apply L; right; right; left; done). lra.
Qed.
(** The planes. *)
Lemma start_hit x : d < 2 * PI → plane_hit t pos false (cos s) (sin s) (- sin s) (cos s) p dir = Some x →
  0 <= x ∧ side s (vx dir) (vy dir) < 0 ∧ side s (vx p) (vy p) + x * side s (vx dir) (vy dir) = 0 ∧ (pos = true → 0 <= ahead s (vx (q x)) (vy (q x))).
Proof.
  intros Hp H. destruct (Hs0 Hp) as [G1 _]. apply plane_some in H. cbv zeta in H. destruct H as (Dn & Ex & Hx & Ha). replace (vx dir * - sin s + vy dir * cos s) with (side s (vx dir) (vy dir)) in * by (unfold side; ring).
  assert (NZ : side s (vx dir) (vy dir) ≠ 0) by lra. apply root_eq in Ex; [|done|done]. rewrite Rabs_left in Hx by done. split; [|done].
  destruct Hin as (_ & _ & Cs). specialize (Cs Hp). rewrite by_sides' in Cs by lra. destruct (Rle_dec d PI) as [K|K].
  - destruct Cs as [Cs _]. destruct (Cs K) as [A _]. clear - A Ex Dn. generalize dependent (side s (vx dir) (vy dir)). intros c. intros. nra.
  - destruct (Hbig ltac:(lra)) as ([A|A] & _); [|exfalso; lra]. clear - A Ex Dn. generalize dependent (side s (vx dir) (vy dir)). intros c. intros. nra.
Qed.
Lemma end_hit x : d < 2 * PI → plane_hit t pos false (cos (s + d)) (sin (s + d)) (sin (s + d)) ny2 p dir = Some x →
  0 <= x ∧ 0 < side (s + d) (vx dir) (vy dir) ∧ side (s + d) (vx p) (vy p) + x * side (s + d) (vx dir) (vy dir) = 0 ∧ (pos = true → 0 <= ahead (s + d) (vx (q x)) (vy (q x))).
Proof.
  intros Hp H. destruct (Hs0 Hp) as [_ G1]. apply plane_some in H. cbv zeta in H. destruct H as (Dn & Ex & Hx & Ha).
  destruct Hin as (_ & _ & Cs). specialize (Cs Hp). rewrite by_sides' in Cs by lra.
  assert (DD : 0 < side (s + d) (vx dir) (vy dir) ∧ (PI < d → vx dir * sin (s + d) + vy dir * ny2 = - side (s + d) (vx dir) (vy dir))).
  { unfold ny2 in *. destruct (one_pi (sector_type k)) as [E|E].
    - rewrite E in Dn |- *. split; [apply Hpi; [done|lra]|]. intros W. pose proof (fits_pi k m d Hk E). lra.
    - rewrite one_pi_not in Dn |- * by done. unfold side. split; [lra|]. intros _. ring. }
  destruct DD as [D1 D2]. assert (NZ : side (s + d) (vx dir) (vy dir) ≠ 0) by lra. apply root_eq in Ex; [|done|done]. split; [|done].
  destruct (Rle_dec d PI) as [K|K].
  - destruct Cs as [Cs _]. destruct (Cs K) as [_ A]. clear - A Ex D1. generalize dependent (side (s + d) (vx dir) (vy dir)). intros c. intros. nra.
  - destruct (Hbig ltac:(lra)) as (_ & [A|A] & _).
    + clear - A Ex D1. generalize dependent (side (s + d) (vx dir) (vy dir)). intros c. intros. nra.
    + exfalso. rewrite D2, Rabs_Ropp, Rabs_right in Hx by lra. lra.
Qed.
Lemma out_nonneg : 0 <= tube_to_out inf k t p dir.
Proof.
  destruct to_out_least as (_ & _ & [E|E]); [pose proof out_finite; lra|]. destruct E as [(V & E)|[(M0 & E)|[E|[(Hp & _ & E)|(Hp & E)]]]].
  - destruct (tz_spec V) as (T1 & _). rewrite E. exact T1.
  - destruct (inner_spec _ M0 E) as (_ & ? & _). done.
  - destruct (Req_dec n 0) as [N|N]; [destruct (flat_outer _ N E); done|]. destruct (outer_spec N) as (x & Hx & X0 & _). rewrite Hx in E. injection E as <-. lra.
  - destruct (start_hit _ Hp E); done.
  - destruct (end_hit _ Hp E); done.
Qed.
Lemma axis_free u : PI < d < 2 * PI → 0 <= u <= tube_to_out inf k t p dir → rho (q u) ≠ 0.
Proof.
  intros Hp Hu'. destruct (Hbig Hp) as (_ & _ & A). destruct (Req_dec m 0) as [E|E]; [by apply A|]. pose proof (out_stays u Hu') as (_ & Cr & _). lra.
Qed.
Lemma ahead_rho phi v : side phi (vx v) (vy v) = 0 → rho v ≠ 0 → ahead phi (vx v) (vy v) ≠ 0.
Proof using. intros H N E. apply N. destruct (on_line _ _ _ H) as [E1 E2]. rewrite E in E1, E2. unfold rho. rewrite E1, E2, !Rmult_0_l, Rplus_0_l. apply sqrt_0. Qed.
Lemma out_leaves e : 0 < e → ∃ u, tube_to_out inf k t p dir < u < tube_to_out inf k t p dir + e ∧ ¬ C (q u).
Proof.
  intros He. pose proof out_nonneg as D0. pose proof out_finite as DF. assert (AX := axis_free). assert (FL := flat_least). destruct to_out_least as (_ & _ & [E|E]); [exfalso; lra|]. set (D := tube_to_out inf k t p dir) in *. clearbody D.
  assert (NS : ∀ u, d < 2 * PI → ¬ sector s d (vx (q u)) (vy (q u)) → ¬ C (q u)) by (intros u Hp N (_ & _ & K); exact (N (K Hp))).
  destruct E as [(V & E)|[(M0 & E)|[E|[(Hp & _ & E)|(Hp & E)]]]].
  - exists (D + e / 2). split; [lra|]. intros (K & _). destruct (tz_spec V) as (_ & _ & T3 & _). specialize (T3 (D + e / 2)). rewrite <- E in T3. specialize (T3 ltac:(lra)). lra.
  - apply inner_spec in E; [|done]. destruct E as (_ & _ & r & R0 & W). exists (D + Rmin e r / 2). assert (0 < Rmin e r) by (by apply Rmin_pos). pose proof (Rmin_l e r). pose proof (Rmin_r e r). split; [lra|]. intros (_ & (K & _) & _). specialize (W (D + Rmin e r / 2) ltac:(lra)). lra.
  - destruct (Req_dec n 0) as [N|N]; [apply (flat_outer _ N) in E; specialize (FL N); exfalso; lra|]. destruct (outer_spec N) as (x & Hx & _ & _ & X2). rewrite Hx in E. injection E as ->. exists (D + e / 2). split; [lra|]. intros (_ & (_ & K) & _). specialize (X2 (D + e / 2) ltac:(lra)). lra.
  - apply start_hit in E; [|done]. destruct E as (_ & Dn & Ex & Ha). assert (SA : ∀ v, side s (vx (q (D + v))) (vy (q (D + v))) = v * side s (vx dir) (vy dir)) by (intros v; unfold q; rewrite side_q; lra).
    destruct (Rle_dec d PI) as [K|K].
    + exists (D + e / 2). split; [lra|]. apply NS; [done|]. rewrite by_sides' by lra. intros [Q _]. destruct (Q K) as [Q' _]. rewrite SA in Q'. clear - Q' Dn He. nra.
    + specialize (Ha (fits_pos k m d Hk ltac:(lra))). assert (S0 : side s (vx (q D)) (vy (q D)) = 0) by (unfold q; rewrite side_q; lra). pose proof (ahead_rho s (q D) S0 (AX D ltac:(lra) ltac:(lra))) as A1.
      assert (SB : side (s + d) (vx (q D)) (vy (q D)) = ahead s (vx (q D)) (vy (q D)) * - sin d). { rewrite (side_on_line s (s + d)) by done. replace (s - (s + d)) with (- d) by ring. by rewrite sin_neg. }
      assert (Sd : sin d < 0) by (apply sin_lt_0; lra). destruct (near_pos (side (s + d) (vx (q D)) (vy (q D))) (side (s + d) (vx dir) (vy dir)) e) as (v & Hv & HB); [rewrite SB; apply Rmult_lt_0_compat; lra|done|].
      exists (D + v). split; [lra|]. apply NS; [done|]. rewrite by_sides' by lra. intros [_ Q]. destruct (Q ltac:(lra)) as [Q'|Q'].
      * rewrite SA in Q'. clear - Q' Dn Hv. nra.
      * unfold q in Q', HB. rewrite side_q in Q', HB. lra.
  - apply end_hit in E; [|done]. destruct E as (_ & Dn & Ex & Ha). assert (SA : ∀ v, side (s + d) (vx (q (D + v))) (vy (q (D + v))) = v * side (s + d) (vx dir) (vy dir)) by (intros v; unfold q; rewrite side_q; lra).
    destruct (Rle_dec d PI) as [K|K].
    + exists (D + e / 2). split; [lra|]. apply NS; [done|]. rewrite by_sides' by lra. intros [Q _]. destruct (Q K) as [_ Q']. rewrite SA in Q'. clear - Q' Dn He. nra.
    + specialize (Ha (fits_pos k m d Hk ltac:(lra))). assert (S0 : side (s + d) (vx (q D)) (vy (q D)) = 0) by (unfold q; rewrite side_q; lra). pose proof (ahead_rho (s + d) (q D) S0 (AX D ltac:(lra) ltac:(lra))) as A1.
      assert (SB : side s (vx (q D)) (vy (q D)) = ahead (s + d) (vx (q D)) (vy (q D)) * sin d). { rewrite (side_on_line (s + d) s) by done. by replace (s + d - s) with d by ring. }
      assert (Sd : sin d < 0) by (apply sin_lt_0; lra). destruct (near_pos (- side s (vx (q D)) (vy (q D))) (- side s (vx dir) (vy dir)) e) as (v & Hv & HB); [rewrite SB; apply Ropp_0_gt_lt_contravar; assert (0 < ahead (s + d) (vx (q D)) (vy (q D)) * - sin d) by (apply Rmult_lt_0_compat; lra); lra|done|].
      exists (D + v). split; [lra|]. apply NS; [done|]. rewrite by_sides' by lra. intros [_ Q]. destruct (Q ltac:(lra)) as [Q'|Q'].
      * unfold q in Q', HB. rewrite side_q in Q', HB. lra.
      * rewrite SA in Q'. clear - Q' Dn Hv. nra.
Qed.
End Out.
