(** DistanceToIn of tubes. *)
From Coq Require Import Reals Lra Lia Bool ZArith Psatz.
From stdpp Require Import base list option numbers tactics.
From Verif Require Import Real3 AABBModel BoxModel BoxProofs PlanesModel PlanesProofs ConeModel ConeSpec ConeProofs WedgeModel WedgeSpec WedgeProofs WedgeProofs2 TubeModel TubeSpec TubeProofs TubeProofs2 TubeProofs3.
Import stdpp.list.
Local Open Scope R_scope.

(** * Quadratics keep their sign nearby *)
Lemma quad_open a b c v0 : 0 < a + b * v0 + c * (v0 * v0) → ∃ e, 0 < e ∧ ∀ v, Rabs (v - v0) < e → 0 < a + b * v + c * (v * v).
Proof.
  intros H. set (g := a + b * v0 + c * (v0 * v0)) in *. set (S := Rabs (b + 2 * c * v0) + Rabs c). pose proof (Rabs_pos (b + 2 * c * v0)) as P1. pose proof (Rabs_pos c) as P2.
  assert (S0 : 0 <= S) by (unfold S; lra). set (w := g / (1 + S)). assert (Ew : w * (1 + S) = g) by (unfold w; field; lra). assert (W : 0 < w) by (unfold w; apply Rdiv_lt_0_compat; lra).
  exists (Rmin 1 w). split; [apply Rmin_pos; lra|]. intros v Hv. pose proof (Rmin_l 1 w). pose proof (Rmin_r 1 w).
  set (x := v - v0) in *. assert (E : a + b * v + c * (v * v) = g + x * (b + 2 * c * v0) + x * x * c) by (unfold g, x; ring). rewrite E.
  assert (B1 : - (Rabs x * Rabs (b + 2 * c * v0)) <= x * (b + 2 * c * v0)). { rewrite <- Rabs_mult. pose proof (Rle_abs (- (x * (b + 2 * c * v0)))) as K. rewrite Rabs_Ropp in K. lra. }
  assert (B2 : - (Rabs x * Rabs c) <= x * x * c).
  { assert (Rabs x * Rabs x * Rabs c <= Rabs x * Rabs c). { pose proof (Rabs_pos x). assert (Rabs x * Rabs c * (1 - Rabs x) >= 0) by (apply Rle_ge, Rmult_le_pos; [apply Rmult_le_pos|]; lra). lra. }
    pose proof (Rle_abs (- (x * x * c))) as K. rewrite Rabs_Ropp, !Rabs_mult in K. lra. }
  assert (B3 : Rabs x * S < g). { pose proof (Rabs_pos x). rewrite <- Ew. assert (Rabs x * S <= w * S) by (apply Rmult_le_compat_r; lra). lra. }
  unfold S in B3. lra.
Qed.
Lemma lin_open a b v0 : 0 < a + v0 * b → ∃ e, 0 < e ∧ ∀ v, Rabs (v - v0) < e → 0 < a + v * b.
Proof. intros H. destruct (quad_open a b 0 v0) as (e & He & E); [lra|]. exists e. split; [done|]. intros v Hv. specialize (E v Hv). lra. Qed.

Section In.
Variables (m M Z s d : R).
Hypothesis Hm : 0 <= m < M.
Hypothesis HZ : 0 < Z.
Hypothesis Hd : 0 < d <= 2 * PI.
Variables (p dir : v3).
Let q (u : R) : v3 := along p dir u.
Let core := tube_core m M Z s d.
Let closed := tube_closed m M Z s d.
Definition near (v : R) (P : R → Prop) : Prop := ∃ e, 0 < e ∧ ∀ w, Rabs (w - v) < e → P w.
Lemma near_and v P Q : near v P → near v Q → near v (λ w, P w ∧ Q w).
Proof using. intros (e & He & E) (f & Hf & F). exists (Rmin e f). split; [by apply Rmin_pos|]. intros w Hw. pose proof (Rmin_l e f). pose proof (Rmin_r e f). split; [apply E|apply F]; lra. Qed.
Lemma near_imp v (P Q : R → Prop) : near v P → (∀ w, P w → Q w) → near v Q.
Proof using. intros (e & He & E) H. exists e. split; [done|]. intros w Hw. apply H, E, Hw. Qed.
Lemma near_all v (Q : R → Prop) : (∀ w, Q w) → near v Q.
Proof using. intros H. exists 1. split; [lra|]. auto. Qed.
Lemma rho_sq u : rho (q u) * rho (q u) = rho p * rho p + 2 * (vx p * vx dir + vy p * vy dir) * u + (vx dir * vx dir + vy dir * vy dir) * (u * u).
Proof using. unfold q. rewrite r2_along. ring. Qed.
Lemma z_at u : vz (q u) = vz p + u * vz dir.
Proof using. done. Qed.
Lemma near_rho_lt v A : 0 <= A → rho (q v) < A → near v (λ w, rho (q w) < A).
Proof using.
  intros HA H. pose proof (rho_nonneg (q v)) as R0. apply sqr_lt in H; [|done|done]. rewrite rho_sq in H.
  destruct (quad_open (A * A - rho p * rho p) (- (2 * (vx p * vx dir + vy p * vy dir))) (- (vx dir * vx dir + vy dir * vy dir)) v) as (e & He & E); [lra|].
  exists e. split; [done|]. intros w Hw. specialize (E w Hw). apply sqr_lt; [apply rho_nonneg|done|]. rewrite rho_sq. lra.
Qed.
Lemma near_rho_gt v A : 0 <= A → A < rho (q v) → near v (λ w, A < rho (q w)).
Proof using.
  intros HA H. pose proof (rho_nonneg (q v)) as R0. apply sqr_lt in H; [|done|done]. rewrite rho_sq in H.
  destruct (quad_open (rho p * rho p - A * A) (2 * (vx p * vx dir + vy p * vy dir)) (vx dir * vx dir + vy dir * vy dir) v) as (e & He & E); [lra|].
  exists e. split; [done|]. intros w Hw. specialize (E w Hw). apply sqr_lt; [done|apply rho_nonneg|]. rewrite rho_sq. lra.
Qed.
Lemma near_z_lt v A : Rabs (vz (q v)) < A → near v (λ w, Rabs (vz (q w)) < A).
Proof using.
  intros H. apply Rabs_def2 in H. rewrite z_at in H. destruct (lin_open (A - vz p) (- vz dir) v) as (e & He & E); [lra|]. destruct (lin_open (A + vz p) (vz dir) v) as (f & Hf & F); [lra|].
  apply (near_imp v (λ w, 0 < A - vz p + w * - vz dir ∧ 0 < A + vz p + w * vz dir)); [apply near_and; [by exists e|by exists f]|]. intros w [K1 K2]. rewrite z_at. apply Rabs_def1; lra.
Qed.
Lemma near_z_gt v A : A < Rabs (vz (q v)) → near v (λ w, A < Rabs (vz (q w))).
Proof using.
  intros H. rewrite z_at in H. destruct (Rle_dec 0 (vz p + v * vz dir)) as [K|K].
  - rewrite Rabs_right in H by lra. destruct (lin_open (vz p - A) (vz dir) v) as (f & Hf & F); [lra|]. exists f. split; [done|]. intros w Hw. specialize (F w Hw). rewrite z_at. pose proof (Rle_abs (vz p + w * vz dir)). lra.
  - rewrite Rabs_left in H by lra. destruct (lin_open (- vz p - A) (- vz dir) v) as (f & Hf & F); [lra|]. exists f. split; [done|]. intros w Hw. specialize (F w Hw). rewrite z_at. pose proof (Rle_abs (- (vz p + w * vz dir))). rewrite Rabs_Ropp in *. lra.
Qed.
Lemma near_side phi v : 0 < side phi (vx (q v)) (vy (q v)) → near v (λ w, 0 < side phi (vx (q w)) (vy (q w))).
Proof using. unfold q. rewrite side_q. intros H. destruct (lin_open _ _ _ H) as (e & He & E). exists e. split; [done|]. intros w Hw. rewrite side_q. auto. Qed.
Lemma near_side' phi v : side phi (vx (q v)) (vy (q v)) < 0 → near v (λ w, side phi (vx (q w)) (vy (q w)) < 0).
Proof using.
  unfold q. rewrite side_q. intros H. destruct (lin_open (- side phi (vx p) (vy p)) (- side phi (vx dir) (vy dir)) v) as (e & He & E); [lra|].
  exists e. split; [done|]. intros w Hw. rewrite side_q. specialize (E w Hw). lra.
Qed.
Lemma near_core v : core (q v) → near v (λ w, core (q w)).
Proof using Hm HZ Hd.
  intros (Cz & Cr & Cm & Cs). unfold core, tube_core. apply near_and; [by apply near_z_lt|]. apply near_and; [apply near_rho_lt; [lra|done]|]. apply near_and.
  - destruct (Rle_lt_or_eq_dec 0 m ltac:(lra)) as [K|K]; [|apply near_all; intros; lra]. eapply near_imp; [apply near_rho_gt; [|by apply Cm]; lra|]. done.
  - destruct (Rlt_dec d (2 * PI)) as [K|K]; [|apply near_all; intros; lra]. specialize (Cs K). rewrite open_sides in Cs by lra. destruct Cs as [C1 C2].
    destruct (Rle_dec d PI) as [P|P].
    + destruct (C1 P) as [A B]. eapply near_imp; [apply near_and; [by apply near_side|by apply near_side']|]. intros w [W1 W2] _. apply open_sides; [lra|]. split; intros; [done|lra].
    + destruct (C2 ltac:(lra)) as [A|A].
      * eapply near_imp; [by apply near_side|]. intros w W _. apply open_sides; [lra|]. split; intros; [lra|by left].
      * eapply near_imp; [by apply near_side'|]. intros w W _. apply open_sides; [lra|]. split; intros; [lra|by right].
Qed.
Lemma sector_dec x y : sector s d x y ∨ ¬ sector s d x y.
Proof using Hd. pose proof (wedge_contains_sector d s x y Hd) as W. destruct (wedge_contains _ _ _); [left; by apply W|right; intros Q; apply W in Q; done]. Qed.
Lemma open_dec x y : d < 2 * PI → open_sector s d x y ∨ ¬ open_sector s d x y.
Proof using Hd.
  intros K. rewrite open_sides by lra. destruct (Rlt_dec 0 (side s x y)), (Rlt_dec (side (s + d) x y) 0), (Rle_dec d PI).
  all: try (left; split; intros; lra). all: right; intros [A B]; try (destruct (A ltac:(lra)); lra); try (destruct (B ltac:(lra)); lra).
Qed.
Lemma near_out v : ¬ closed (q v) → near v (λ w, ¬ core (q w)).
Proof using Hm HZ Hd.
  intros H. destruct (Rle_dec (Rabs (vz (q v))) Z) as [Kz|Kz].
  2: { eapply near_imp; [apply (near_z_gt v Z); lra|]. intros w W (C & _). cbn in *. lra. }
  destruct (Rle_dec (rho (q v)) M) as [KM|KM].
  2: { eapply near_imp; [apply (near_rho_gt v M); lra|]. intros w W (_ & C & _). cbn in *. lra. }
  destruct (Rle_dec m (rho (q v))) as [Km|Km].
  2: { pose proof (rho_nonneg (q v)). eapply near_imp; [apply (near_rho_lt v m); lra|]. intros w W (_ & _ & C & _). cbn in *. specialize (C ltac:(lra)). lra. }
  destruct (Rlt_dec d (2 * PI)) as [K|K]; [|exfalso; apply H; split; [done|]; split; [done|]; lra].
  destruct (sector_dec (vx (q v)) (vy (q v))) as [S|S]; [exfalso; apply H; split; [done|]; split; [done|]; done|].
  rewrite by_sides' in S by lra. destruct (Rle_dec d PI) as [P|P].
  - destruct (Rle_dec 0 (side s (vx (q v)) (vy (q v)))) as [A|A].
    + destruct (Rle_dec (side (s + d) (vx (q v)) (vy (q v))) 0) as [B|B]; [exfalso; apply S; split; intros; lra|].
      eapply near_imp; [apply (near_side (s + d) v); lra|]. intros w W (_ & _ & _ & C). cbn in *. specialize (C K). rewrite open_sides in C by lra. destruct C as [C _]. specialize (C P). lra.
    + eapply near_imp; [apply (near_side' s v); lra|]. intros w W (_ & _ & _ & C). cbn in *. specialize (C K). rewrite open_sides in C by lra. destruct C as [C _]. specialize (C P). lra.
  - assert (side s (vx (q v)) (vy (q v)) < 0 ∧ 0 < side (s + d) (vx (q v)) (vy (q v))) as [A B] by (split; apply Rnot_le_lt; intros Q; apply S; split; intros; lra).
    eapply near_imp; [apply near_and; [by apply (near_side' s v)|by apply (near_side (s + d) v)]|]. intros w [W1 W2] (_ & _ & _ & C). cbn in *. specialize (C K). rewrite open_sides in C by lra. destruct C as [_ C]. specialize (C ltac:(lra)). lra.
Qed.
Lemma core_dec x : core x ∨ ¬ core x.
Proof using Hm HZ Hd.
  clear - Hd.
  unfold core, tube_core. destruct (Rlt_dec (Rabs (vz x)) Z); [|right; tauto]. destruct (Rlt_dec (rho x) M); [|right; tauto].
  assert (HH : (0 < m → m < rho x) ∨ ¬ (0 < m → m < rho x)). { destruct (Rlt_dec 0 m), (Rlt_dec m (rho x)); try (left; lra). right. intros K. specialize (K ltac:(lra)). lra. }
  destruct HH as [HH|HH]; [|right; tauto]. destruct (Rlt_dec d (2 * PI)) as [K|K]; [|left; tauto]. destruct (open_dec (vx x) (vy x) K); [left; tauto|right; tauto].
Qed.
(** The last way in before [u]. *)
Lemma entry u : 0 <= u → ¬ core p → core (q u) → ∃ v, 0 <= v < u ∧ closed (q v) ∧ ¬ core (q v) ∧ ∀ w, v < w <= u → core (q w).
Proof using Hm HZ Hd.
  intros U0 H0 HU. assert (Q0 : q 0 = p) by (apply v3_eq; unfold q, along, vadd, vscale; cbn; ring).
  destruct (completeness (λ v, 0 <= v <= u ∧ ¬ core (q v))) as (v & B & L).
  { exists u. intros v (? & _). lra. }
  { exists 0. rewrite Q0. split; [lra|done]. }
  assert (V0 : 0 <= v) by (apply B; rewrite Q0; split; [lra|done]). assert (VU : v <= u) by (apply L; intros w (? & _); lra).
  assert (AFT : ∀ w, v < w <= u → core (q w)). { intros w Hw. destruct (core_dec (q w)) as [|N]; [done|]. exfalso. assert (w <= v) by (apply B; split; [lra|done]). lra. }
  assert (NC : ¬ core (q v)).
  { intros C. destruct (near_core v C) as (e & He & E). assert (v <= v - e); [|lra]. apply L. intros w (Hw & Nw). apply Rnot_lt_le. intros K. assert (w <= v) by (apply B; done). apply Nw, E. rewrite Rabs_left1; lra. }
  assert (VU' : v < u). { destruct (Rle_lt_or_eq_dec _ _ VU) as [|E]; [done|]. rewrite E in NC. done. }
  exists v. split; [lra|]. split; [|done].
  destruct (Rle_dec (Rabs (vz (q v))) Z) as [Kz|Kz]; [destruct (Rle_dec (rho (q v)) M) as [KM|KM]; [destruct (Rle_dec m (rho (q v))) as [Km|Km]; [destruct (Rlt_dec d (2 * PI)) as [K|K]; [destruct (sector_dec (vx (q v)) (vy (q v)))|]|]|]|].
  all: try (split; [done|]; split; [done|]; intros; try done; lra).
  all: exfalso; assert (NCL : ¬ closed (q v)) by (intros (C1 & C2 & C3); try (specialize (C3 ltac:(done))); try contradiction; lra); destruct (near_out v NCL) as (e & He & E); set (w := v + Rmin (e / 2) (u - v)); pose proof (Rmin_l (e / 2) (u - v)); pose proof (Rmin_r (e / 2) (u - v)); assert (0 < Rmin (e / 2) (u - v)) by (apply Rmin_pos; lra);
    apply (E w); [unfold w; rewrite Rabs_right; lra|apply AFT; unfold w; lra].
Qed.
End In.
