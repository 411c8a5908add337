(** DistanceToIn of tubes: the kernel, case by case. *)
From Coq Require Import Reals Lra Lia Bool ZArith Psatz.
From stdpp Require Import base list option numbers tactics.
From Verif Require Import Real3 AABBModel BoxModel BoxProofs PlanesModel PlanesProofs ConeModel ConeSpec ConeProofs WedgeModel WedgeSpec WedgeProofs WedgeProofs2 TubeModel TubeSpec TubeProofs TubeProofs2 TubeProofs3 TubeProofs4.
Import stdpp.list.
Local Open Scope R_scope.

Lemma imp_bool (A : Prop) (b c : bool) : (b = true ↔ A) → (A → c = true) ↔ negb b || c = true.
Proof. intros E. destruct b, c; cbn; split; intros H; try done; try (assert (A) by (by apply E); auto). intros HA. apply E in HA. done. Qed.
Lemma rltb_true a b : rltb a b = true ↔ a < b.
Proof. destruct (rltb_spec a b); split; intros; try done; lra. Qed.
Lemma rgtb_true a b : rgtb a b = true ↔ b < a.
Proof. destruct (rgtb_spec a b); split; intros; try done; lra. Qed.
Lemma rleb_true a b : rleb a b = true ↔ a <= b.
Proof. destruct (rleb_spec a b); split; intros; try done; lra. Qed.
Lemma rgeb_true a b : rgeb a b = true ↔ b <= a.
Proof. destruct (rgeb_spec a b); split; intros; try done; lra. Qed.
Lemma sqr_le' a b : 0 <= a → b * b <= a * a → b <= a.
Proof. intros. nra. Qed.
Lemma sqr_ge' a b : 0 <= b → b * b <= a * a → - a <= b → b <= a ∨ a <= - b.
Proof. intros. nra. Qed.

Section In.
Variables (inf : R) (k : tube_type) (m M Z s d : R).
Hypothesis Hm : 0 <= m < M.
Hypothesis HZ : 0 < Z.
Hypothesis Hd : 0 < d <= 2 * PI.
Hypothesis Hk : tube_fits k m d.
Hypothesis HM : kTolerance <= M.
Hypothesis Hm' : m = 0 ∨ kTolerance <= m.
Let t := tb m M Z s d.
Variables (p dir : v3).
Let q (u : R) : v3 := along p dir u.
Let core := tube_core m M Z s d.
Let closed := tube_closed m M Z s d.
Let h := kHalfTolerance.
Let rdotn := vx p * vx dir + vy p * vy dir.
Let tz := (Rabs (vz p) - Z) / nz (Rabs (vz dir)).
Let inv := 1 / nz (1 - vz dir * vz dir).
Let b := inv * rdotn.
Let outer := circle_hit k t false true b (inv * (rho p * rho p - M * M)) p dir.
Let inner := circle_hit k t true true b (inv * (rho p * rho p - m * m)) p dir.
Let pos := match sector_type k with kOnePi => false | _ => true end.
Definition in_done : Prop := (Z + h < Rabs (vz p) ∧ 0 <= vz p * vz dir) ∨ ((M - h) * (M - h) < rho p * rho p ∧ 0 <= rdotn).
Definition in_deep : Prop := Rabs (vz p) < Z - h ∧ rho p < M - h ∧ (0 < m → m + h < rho p) ∧
  (d < 2 * PI → (d <= PI → h <= side s (vx p) (vy p) ∧ side (s + d) (vx p) (vy p) <= - h) ∧ (PI < d → h <= side s (vx p) (vy p) ∨ side (s + d) (vx p) (vy p) <= - h)).
Definition in_okz : Prop := - h < tz ∧ vz p * vz dir < 0 ∧ m <= rho (q tz) <= M ∧ (d < 2 * PI → wide_sector h s d (vx (q tz)) (vy (q tz))).
Definition in_moving : Prop := Rabs (vz p) < Z + kTolerance ∧ (M - h <= rho p <= M + h ∨ (0 < m ∧ m - h <= rho p <= m + h)) ∧ (d < 2 * PI → wide_sector h s d (vx p) (vy p)).
Definition in_cand (x : R) : Prop :=
  (0 < m ∧ inner = Some x) ∨ (d < 2 * PI ∧ plane_hit t pos true (cos s) (sin s) (- sin s) (cos s) p dir = Some x) ∨
  (d < 2 * PI ∧ sector_type k ≠ kOnePi ∧ plane_hit t true true (cos (s + d)) (sin (s + d)) (sin (s + d)) (- cos (s + d)) p dir = Some x).
Lemma half_tol : 0 < h ∧ 2 * h = kTolerance.
Proof using. unfold h. pose proof kHalfTolerance_pos. split; [done|]. unfold kHalfTolerance. field. Qed.
Lemma in_cases : let D := tube_to_in_kernel inf k t p dir in
  (in_done ∧ D = inf) ∨ (¬ in_done ∧ in_deep ∧ D = -1) ∨ (¬ in_done ∧ ¬ in_deep ∧ in_okz ∧ D = tz) ∨ (¬ in_done ∧ ¬ in_deep ∧ ¬ in_okz ∧ in_moving ∧ D = 0) ∨
  (¬ in_done ∧ ¬ in_deep ∧ ¬ in_okz ∧ outer = Some D ∧ D < inf) ∨
  (¬ in_done ∧ ¬ in_deep ∧ ¬ in_okz ∧ (∀ x, outer = Some x → inf <= x) ∧ (∀ x, in_cand x → D <= x) ∧ D <= inf ∧ (D = inf ∨ in_cand D)).
Proof using Hm HZ Hd Hk HM Hm'.
  intros D. pose proof half_tol as [H0 H2]. pose proof (rho_nonneg p) as R0.
  assert (PH : rltb d (2 * PI) = true ↔ d < 2 * PI) by apply rltb_true. assert (HO : rgtb m 0 = true ↔ 0 < m) by apply rgtb_true.
  set (b1 := rgtb (Rabs (vz p) - Z) kHalfTolerance && rgeb (vz p * vz dir) 0 || rgtb (rho p * rho p) ((M - h) * (M - h)) && rgeb rdotn 0).
  assert (E1 : b1 = true ↔ in_done).
  { unfold b1, in_done. rewrite orb_true_iff, !andb_true_iff, !rgtb_true, !rgeb_true. fold h. split; (intros [[? ?]|[? ?]]; [left|right]; split; lra). }
  set (b2 := rltb (Rabs (vz p) - Z) (- kHalfTolerance) && rltb (rho p * rho p) ((M - h) * (M - h)) && (negb (rgtb m 0) || rgtb (rho p * rho p) ((m + h) * (m + h))) && (negb (rltb d (2 * PI)) || in_sector k t false (vx p) (vy p))).
  assert (E2 : b2 = true ↔ in_deep).
  { unfold b2, in_deep. rewrite !andb_true_iff. rewrite <- (imp_bool (d < 2 * PI) (rltb d (2 * PI)) _ PH). rewrite <- (imp_bool (0 < m) (rgtb m 0) _ HO). rewrite !rltb_true, rgtb_true. fold h.
    assert (W : rho p * rho p < (M - h) * (M - h) ↔ rho p < M - h) by (apply sqr_lt; lra). assert (W' : (m + h) * (m + h) < rho p * rho p ↔ m + h < rho p) by (apply sqr_lt; lra). rewrite W, W'.
    split.
    - intros (((? & ?) & ?) & F). split; [lra|]. split; [done|]. split; [done|]. intros K. specialize (F K). apply in_sector_spec in F; done.
    - intros (? & ? & ? & F). split; [split; [split; [lra|done]|done]|]. intros K. apply in_sector_spec; try done. by apply F. }
  set (b3 := rgtb tz (- kHalfTolerance) && rltb (vz p * vz dir) 0 && rleb (rho (q tz) * rho (q tz)) (M * M) && (negb (rgtb m 0) || rleb (m * m) (rho (q tz) * rho (q tz))) && (negb (rltb d (2 * PI)) || in_sector k t true (vx (q tz)) (vy (q tz)))).
  assert (E3 : b3 = true ↔ in_okz).
  { unfold b3, in_okz. rewrite !andb_true_iff. rewrite <- (imp_bool (d < 2 * PI) (rltb d (2 * PI)) _ PH). rewrite <- (imp_bool (0 < m) (rgtb m 0) _ HO). rewrite !rleb_true, rgtb_true, rltb_true. fold h. pose proof (rho_nonneg (q tz)) as R1.
    assert (W : rho (q tz) * rho (q tz) <= M * M ↔ rho (q tz) <= M) by (apply sqr_le; lra). assert (W' : m * m <= rho (q tz) * rho (q tz) ↔ m <= rho (q tz)) by (apply sqr_le; lra). rewrite W, W'.
    split.
    - intros ((((? & ?) & ?) & F1) & F). split; [done|]. split; [done|]. split; [split; [|done]; destruct (Rlt_dec 0 m); [auto|lra]|]. intros K. specialize (F K). apply sector_test in F; done.
    - intros (? & ? & (? & ?) & F). split; [split; [split; [split|]|]; done|]. intros K. apply sector_test; try done. by apply F. }
  set (b4 := (moving_inside t false p dir || (rgtb m 0 && moving_inside t true p dir)) && (negb (rltb d (2 * PI)) || in_sector k t true (vx p) (vy p))).
  assert (E4 : b4 = true → in_moving).
  { unfold b4, in_moving. rewrite !andb_true_iff, orb_true_iff, andb_true_iff, HO. rewrite <- (imp_bool (d < 2 * PI) (rltb d (2 * PI)) _ PH). intros [A F]. unfold moving_inside, on_tube in A. rewrite r2_rho in A.
    change (tb_Irmax2 t) with ((M - h) * (M - h)) in A. change (tb_Ormax2 t) with ((M + h) * (M + h)) in A. change (tb_Irmin2 t) with ((m + h) * (m + h)) in A. change (tb_Ormin2 t) with ((m - h) * (m - h)) in A. change (tb_z t) with Z in A.
    rewrite !andb_true_iff, !rgeb_true, !rleb_true, !rltb_true in A. split; [tauto|]. split.
    - destruct A as [(((A & B) & _) & _)|(? & ((A & B) & _) & _)].
      + left. split; apply sqr_le; try done; lra.
      + right. split; [done|]. split; apply sqr_le; try done; lra.
    - intros K. specialize (F K). apply sector_test in F; done. }
  set (D1 := if rgtb m 0 then shorter inf inner else inf).
  set (c1 := plane_hit t pos true (cos s) (sin s) (- sin s) (cos s) p dir). set (c2 := plane_hit t true true (cos (s + d)) (sin (s + d)) (sin (s + d)) (- cos (s + d)) p dir).
  set (rest := if negb (rltb d (2 * PI)) then D1 else match sector_type k with kOnePi => shorter D1 c1 | _ => shorter (shorter D1 c1) c2 end).
  assert (ED : D = if b1 then inf else if b2 then -1 else if b3 then tz else if b4 then 0 else match outer with Some x => if rltb x inf then x else rest | None => rest end).
  { unfold D, tube_to_in_kernel. cbv zeta. unfold t. rewrite hole_eq, phi_eq by done. fold t. rewrite r2_rho.
    change (tb_z t) with Z. change (tb_rmax2 t) with (M * M). change (tb_rmin2 t) with (m * m). change (tb_Irmax2 t) with ((M - h) * (M - h)). change (tb_Irmin2 t) with ((m + h) * (m + h)). change (tb_wedge t) with (mk_wedge d s).
    fold rdotn. fold b1. destruct b1; [done|]. fold b2. destruct b2; [done|]. fold tz. change (vx p + tz * vx dir) with (vx (q tz)). change (vy p + tz * vy dir) with (vy (q tz)). rewrite r2_rho. fold b3. destruct b3; [done|]. fold b4. destruct b4; [done|].
    fold inv. fold b. fold outer inner. fold D1.
    change (tb_a1x t) with (cos s). change (tb_a1y t) with (sin s). change (tb_a2x t) with (cos (s + d)). change (tb_a2y t) with (sin (s + d)).
    change (wd_n1x (mk_wedge d s)) with (- sin s). change (wd_n1y (mk_wedge d s)) with (cos s). change (wd_n2x (mk_wedge d s)) with (sin (s + d)). change (wd_n2y (mk_wedge d s)) with (- cos (s + d)).
    assert (ER : (if negb (rltb d (2 * PI)) then D1 else match sector_type k with kOnePi => shorter D1 (plane_hit t false true (cos s) (sin s) (- sin s) (cos s) p dir) | _ => shorter (shorter D1 (plane_hit t true true (cos s) (sin s) (- sin s) (cos s) p dir)) c2 end) = rest).
    { unfold rest, c1, pos. destruct (sector_type k); done. }
    rewrite <- ER. unfold c2. destruct (sector_type k); done. }
  assert (F1 : b1 = false → ¬ in_done) by (intros F W; apply E1 in W; congruence). assert (F2 : b2 = false → ¬ in_deep) by (intros F W; apply E2 in W; congruence). assert (F3 : b3 = false → ¬ in_okz) by (intros F W; apply E3 in W; congruence).
  clearbody b1 b2 b3 b4. clearbody D.
  destruct b1; [left; split; [by apply E1|done]|]. right. destruct b2; [left; split; [by apply F1|]; split; [by apply E2|done]|]. right. destruct b3; [left; split; [by apply F1|]; split; [by apply F2|]; split; [by apply E3|done]|]. right.
  destruct b4; [left; split; [by apply F1|]; split; [by apply F2|]; split; [by apply F3|]; split; [by apply E4|done]|]. right.
  assert (RR : D = rest → (∀ x, in_cand x → D <= x) ∧ D <= inf ∧ (D = inf ∨ in_cand D)).
  { intros ->. assert (A1 : D1 <= inf ∧ (∀ x, 0 < m → inner = Some x → D1 <= x) ∧ (D1 = inf ∨ (0 < m ∧ inner = Some D1))).
    { unfold D1. destruct (rgtb_spec m 0); [|split; [lra|]; split; [intros; exfalso; lra|by left]]. split; [apply (shorter_le _ _ 0)|]. split; [intros x _; apply shorter_le|]. destruct (shorter_one inf inner); [by left|right; split; [lra|done]]. }
    destruct A1 as (A1 & A2 & A3). assert (S1 := shorter_le D1 c1). assert (S1' := shorter_one D1 c1). assert (S2 := shorter_le (shorter D1 c1) c2). assert (S2' := shorter_one (shorter D1 c1) c2).
    assert (B1 : D1 = inf ∨ in_cand D1) by (destruct A3; [by left|right; by left]).
    assert (CASES : rest = D1 ∧ ¬ d < 2 * PI ∨ d < 2 * PI ∧ sector_type k = kOnePi ∧ rest = shorter D1 c1 ∨ d < 2 * PI ∧ sector_type k ≠ kOnePi ∧ rest = shorter (shorter D1 c1) c2).
    { unfold rest. destruct (rltb_spec d (2 * PI)); [right|by left]. cbn [negb]. destruct (one_pi (sector_type k)) as [E|E]; [left; rewrite E; done|right]. split; [done|]. split; [done|]. by rewrite one_pi_not. }
    clearbody rest D1. unfold in_cand at 1. fold c1 c2. destruct CASES as [(-> & N)|[(N & Ek & ->)|(N & Ek & ->)]].
    - split; [|split; [lra|done]]. intros x [(E1' & E2')|[(E1' & _)|(E1' & _)]]; try (exfalso; lra). by apply A2.
    - split; [|split].
      + intros x E. destruct (S1 x) as [Q1 Q2]. destruct E as [(V & E)|[(_ & E)|(_ & E & _)]]; [|by apply Q2|done]. specialize (A2 x V E). lra.
      + destruct (S1 0). lra.
      + destruct S1' as [E|E]; [rewrite E; exact B1|]. right; right; left. split; [exact N|exact E].
    - split; [|split].
      + intros x E. destruct (S1 x) as [Q1 Q2]. destruct (S2 x) as [Q3 Q4]. destruct E as [(V & E)|[(_ & E)|(_ & _ & E)]]; [specialize (A2 x V E); lra|specialize (Q2 E); lra|by apply Q4].
      + destruct (S1 0), (S2 0). lra.
      + destruct S2' as [E|E]; [rewrite E|right; right; right; split; [exact N|]; split; [exact Ek|exact E]]. destruct S1' as [F|F]; [rewrite F; exact B1|right; right; left; split; [exact N|exact F]]. }
  clearbody outer. destruct outer as [x|].
  - destruct (rltb_spec x inf) as [L|L].
    + left. split; [by apply F1|]. split; [by apply F2|]. split; [by apply F3|]. rewrite ED. done.
    + right. split; [by apply F1|]. split; [by apply F2|]. split; [by apply F3|]. split; [intros y [= <-]; lra|]. by apply RR.
  - right. split; [by apply F1|]. split; [by apply F2|]. split; [by apply F3|]. split; [done|]. by apply RR.
Qed.
End In.
