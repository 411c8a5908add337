From Coq Require Import Reals Lra Lia.
From stdpp Require Import list option.
From Verif Require Import Real3 AABBModel AABBSpec TransModel TransSpec TransProofs BoxModel BoxProofs ExtentModel ExtentSpec ExtentProofs ShapeModel BoolModel BoolSpec.
Import stdpp.list.
Local Open Scope R_scope.

#[local] Instance inside_eq_dec : EqDecision inside. Proof. solve_decision. Defined.
Lemma kPush_pos : 0 < kPush. Proof. unfold kPush. lra. Qed.
Lemma tol_push : kTolerance < kPush. Proof. unfold kPush, kTolerance. lra. Qed.
Lemma along_along p d s t : along (along p d s) d t = along p d (s + t).
Proof. apply v3_eq; cbn; ring. Qed.
Lemma along_zero p d : along p d 0 = p.
Proof. apply v3_eq; cbn; ring. Qed.
Lemma transform_one p : transform tr_one p = p.
Proof. rewrite transform_eq. apply v3_eq; cbn; ring. Qed.
Lemma direction_one p : transform_direction tr_one p = p.
Proof. rewrite transform_direction_eq. apply v3_eq; cbn; ring. Qed.
Lemma inverse_direction_one p : inverse_transform_direction tr_one p = p.
Proof. apply v3_eq; cbn; ring. Qed.
Lemma put_one S p : put tr_one S p ↔ S p.
Proof. unfold put. by rewrite transform_one. Qed.

(** ** Points *)
Lemma contains_combine l r op A B : decides (pv_contains l) A → decides (pv_contains r) B → decides (bool_contains l r op) (combined op A B).
Proof.
  intros HA HB p. specialize (HA p). specialize (HB p). unfold bool_contains, combined.
  destruct op, (pv_contains l p), (pv_contains r p); cbn; intuition congruence.
Qed.
Lemma solid_points inf fuel e : decides (s_contains (solid inf fuel e)) (points e).
Proof.
  induction e as [s|op tl l IHl tr r IHr]; [done|]. cbn [solid points bool_shape s_contains].
  apply contains_combine; intros p; [apply IHl|apply IHr].
Qed.
(** ** Safeties *)
Section Safety.
Context (l r : placed) (A B : v3 → Prop).
Hypothesis HA : decides (s_contains (pl_shape l)) A.
Hypothesis HB : decides (s_contains (pl_shape r)) B.
Hypothesis Ol : ortho (pl_tr l).
Hypothesis Or : ortho (pl_tr r).
Lemma cl p : pv_contains l p = true ↔ put (pl_tr l) A p. Proof. apply HA. Qed.
Lemma cr p : pv_contains r p = true ↔ put (pl_tr r) B p. Proof. apply HB. Qed.
Lemma cl' p : pv_contains l p = false ↔ ¬ put (pl_tr l) A p. Proof. rewrite <- cl. destruct (pv_contains l p); naive_solver. Qed.
Lemma cr' p : pv_contains r p = false ↔ ¬ put (pl_tr r) B p. Proof. rewrite <- cr. destruct (pv_contains r p); naive_solver. Qed.
Lemma in_l p q : safe_in (pl_shape l) A → ¬ put (pl_tr l) A p → put (pl_tr l) A q → pv_safety_in l p <= vdist p q.
Proof using Ol. intros S Hp Hq. unfold pv_safety_in. rewrite <- (transform_dist (pl_tr l) p q) by done. by apply S. Qed.
Lemma in_r p q : safe_in (pl_shape r) B → ¬ put (pl_tr r) B p → put (pl_tr r) B q → pv_safety_in r p <= vdist p q.
Proof using Or. intros S Hp Hq. unfold pv_safety_in. rewrite <- (transform_dist (pl_tr r) p q) by done. by apply S. Qed.
Lemma out_r p q : safe_out (pl_shape r) B → ¬ put (pl_tr r) B q → pv_safety_out r (transform (pl_tr r) p) <= vdist p q.
Proof using Or HB.
  intros (S1 & S2) Hq. unfold pv_safety_out. rewrite <- (transform_dist (pl_tr r) p q) by done. pose proof (vdist_nonneg (transform (pl_tr r) p) (transform (pl_tr r) q)).
  destruct (pv_contains r p) eqn:E; [apply cr in E; by apply S1|]. apply cr' in E. specialize (S2 _ E). lra.
Qed.
Lemma out_l p q : pl_tr l = tr_one → safe_out (pl_shape l) A → ¬ put (pl_tr l) A q → pv_safety_out l p <= vdist p q.
Proof using HA.
  intros T (S1 & S2) Hq. unfold pv_safety_out. pose proof (vdist_nonneg p q). rewrite T, put_one in Hq.
  destruct (pv_contains l p) eqn:E; [apply cl in E; rewrite T, put_one in E; by apply S1|]. apply cl' in E. rewrite T, put_one in E. specialize (S2 _ E). lra.
Qed.
Lemma safety_in_ok op p q : safe_in (pl_shape l) A → safe_in (pl_shape r) B → (op = kSubtraction → safe_out (pl_shape r) B) →
  ¬ combined op (put (pl_tr l) A) (put (pl_tr r) B) p → combined op (put (pl_tr l) A) (put (pl_tr r) B) q → bool_safety_in l r op p <= vdist p q.
Proof using HA HB Ol Or.
  intros Sl Sr So Hp Hq. unfold bool_safety_in. destruct op; cbn [combined] in *.
  - destruct Hq as [Hq|Hq]; [eapply Rle_trans; [apply Rmin_l|apply in_l; tauto]|eapply Rle_trans; [apply Rmin_r|apply in_r; tauto]].
  - destruct (pv_contains l p) eqn:El, (pv_contains r p) eqn:Er; cbn [negb andb];
    rewrite ?cl, ?cr, ?cl', ?cr' in *; [tauto|apply in_r; tauto|apply in_l; tauto|eapply Rle_trans; [apply Rmin_l|apply in_l; tauto]].
  - destruct (pv_contains l p) eqn:El, (pv_contains r p) eqn:Er; cbn [andb]; rewrite ?cl, ?cr, ?cl', ?cr' in *;
    [apply out_r; [by apply So|tauto]|tauto|apply in_l; tauto|apply in_l; tauto].
Qed.
Lemma safety_out_ok op p q : pl_tr l = tr_one →
  safe_out (pl_shape l) A → safe_out (pl_shape r) B → (op = kSubtraction → safe_in (pl_shape r) B) →
  ¬ combined op (put (pl_tr l) A) (put (pl_tr r) B) q →
  (combined op (put (pl_tr l) A) (put (pl_tr r) B) p → bool_safety_out l r op p <= vdist p q).
Proof using HA HB Ol Or.
  intros T Sl Sr Si Hq Hp. unfold bool_safety_out, union_safety_out. destruct op; cbn [combined] in *.
  - assert (pv_safety_out l p <= vdist p q) as K1 by (apply out_l; tauto). assert (pv_safety_out r (transform (pl_tr r) p) <= vdist p q) as K2 by (apply out_r; tauto).
    pose proof (vdist_nonneg p q). pose proof kTolerance_pos. pose proof (Rmax_lub _ _ _ K1 K2). destruct (pv_inside l p), (pv_inside r p); lra.
  - pose proof (vdist_nonneg p q). destruct (rltb_spec (Rmin (pv_safety_out l p) (pv_safety_out r (transform (pl_tr r) p))) 0); [done|].
    destruct (pv_contains l q) eqn:El; rewrite ?cl, ?cl' in El; [eapply Rle_trans; [apply Rmin_r|apply out_r; tauto]|eapply Rle_trans; [apply Rmin_l|apply out_l; tauto]].
  - destruct Hp as [Hp1 Hp2]. destruct (pv_contains l q) eqn:El; rewrite ?cl, ?cl' in El; [|eapply Rle_trans; [apply Rmin_l|apply out_l; tauto]].
    eapply Rle_trans; [apply Rmin_r|]. destruct (pv_contains r q) eqn:Er; rewrite ?cr, ?cr' in Er; [apply in_r; tauto|tauto].
Qed.
Lemma safety_out_outside op p : pl_tr l = tr_one →
  safe_out (pl_shape l) A → safe_out (pl_shape r) B → (op = kSubtraction → ∀ p, B p → s_safety_in (pl_shape r) p <= 0) →
  ¬ combined op (put (pl_tr l) A) (put (pl_tr r) B) p → bool_safety_out l r op p <= 0.
Proof using HA HB.
  intros T Sl Sr Si Hp. unfold bool_safety_out, union_safety_out. pose proof kTolerance_pos.
  assert (¬ put (pl_tr l) A p → pv_safety_out l p <= 0) as Kl. { intros N. unfold pv_safety_out. rewrite T, put_one in N. by apply Sl. }
  assert (¬ put (pl_tr r) B p → pv_safety_out r (transform (pl_tr r) p) <= 0) as Kr by (intros N; by apply Sr).
  destruct op; cbn [combined] in *.
  - assert (Rmax (pv_safety_out l p) (pv_safety_out r (transform (pl_tr r) p)) <= 0) by (apply Rmax_lub; tauto).
    destruct (pv_inside l p), (pv_inside r p); try lra; tauto.
  - destruct (rltb_spec (Rmin (pv_safety_out l p) (pv_safety_out r (transform (pl_tr r) p))) 0); [lra|].
    destruct (pv_contains l p) eqn:El; rewrite ?cl, ?cl' in El; [eapply Rle_trans; [apply Rmin_r|tauto]|eapply Rle_trans; [apply Rmin_l|tauto]].
  - destruct (pv_contains l p) eqn:El; rewrite ?cl, ?cl' in El; [|eapply Rle_trans; [apply Rmin_l|tauto]].
    eapply Rle_trans; [apply Rmin_r|]. apply Si; [done|]. destruct (pv_contains r p) eqn:Er; rewrite ?cr, ?cr' in Er; tauto.
Qed.
End Safety.
(** ** Rays *)
Section Rays.
Context (inf : R) (Hinf : 10 ^ 20 < inf).
Lemma inf_pos : 0 < inf. Proof using Hinf. assert (0 < 10 ^ 20) by (apply pow_lt; lra). lra. Qed.
(** Union, entering; intersection and subtraction, leaving. *)
Lemma union_entry A B s a b : entry_is inf A s a → entry_is inf B s b → entry_is inf (λ u, A u ∨ B u) s (Rmin a b).
Proof using Hinf.
  pose proof inf_pos. intros [(La & Ha)|(-> & Na)] [(Lb & Hb)|(-> & Nb)].
  - left. destruct Ha as (A0 & A1 & A2), Hb as (B0 & B1 & B2). unfold Rmin. destruct (Rle_dec a b); (split; [lra|]); (split; [lra|]); split.
    + intros u Hu [K|K]; [eapply A1|eapply B1]; try exact K; lra.
    + intros e He. destruct (A2 e He) as (u & ? & ?). eauto.
    + intros u Hu [K|K]; [eapply A1|eapply B1]; try exact K; lra.
    + intros e He. destruct (B2 e He) as (u & ? & ?). eauto.
  - left. rewrite Rmin_left by lra. split; [done|]. destruct Ha as (A0 & A1 & A2). split; [done|]. split.
    + intros u Hu [K|K]; [eapply A1|eapply Nb]; try exact K; lra.
    + intros e He. destruct (A2 e He) as (u & ? & ?). eauto.
  - left. rewrite Rmin_right by lra. split; [done|]. destruct Hb as (B0 & B1 & B2). split; [done|]. split.
    + intros u Hu [K|K]; [eapply Na|eapply B1]; try exact K; lra.
    + intros e He. destruct (B2 e He) as (u & ? & ?). eauto.
  - right. rewrite Rmin_left by lra. split; [done|]. intros u Hu [K|K]; [eapply Na|eapply Nb]; try exact K; lra.
Qed.
Lemma inter_exit A B s a b : exit_is inf A s a → exit_is inf B s b → exit_is inf (overlap A B) s (Rmin a b).
Proof using Hinf.
  pose proof inf_pos. unfold overlap. intros [(La & Ha)|(-> & Na)] [(Lb & Hb)|(-> & Nb)].
  - left. destruct Ha as (A0 & A1 & A2), Hb as (B0 & B1 & B2). unfold Rmin. destruct (Rle_dec a b); (split; [lra|]); (split; [lra|]); split.
    + intros u Hu. split; [apply A1|apply B1]; lra.
    + intros e He. destruct (A2 e He) as (u & ? & ?). exists u. tauto.
    + intros u Hu. split; [apply A1|apply B1]; lra.
    + intros e He. destruct (B2 e He) as (u & ? & ?). exists u. tauto.
  - left. rewrite Rmin_left by lra. split; [done|]. destruct Ha as (A0 & A1 & A2). split; [done|]. split.
    + intros u Hu. split; [apply A1|apply Nb]; lra.
    + intros e He. destruct (A2 e He) as (u & ? & ?). exists u. tauto.
  - left. rewrite Rmin_right by lra. split; [done|]. destruct Hb as (B0 & B1 & B2). split; [done|]. split.
    + intros u Hu. split; [apply Na|apply B1]; lra.
    + intros e He. destruct (B2 e He) as (u & ? & ?). exists u. tauto.
  - right. rewrite Rmin_left by lra. split; [done|]. intros u Hu. split; [apply Na|apply Nb]; lra.
Qed.
Lemma entry_exit B s b : entry_is inf B s b → (∀ u, B u ∨ ¬ B u) → exit_is inf (λ u, ¬ B u) s b.
Proof using.
  intros [(L & H0 & H1 & H2)|(-> & N)] D; [left|right].
  - split; [done|]. split; [done|]. split; [done|]. intros e He. destruct (H2 e He) as (u & ? & ?). exists u. tauto.
  - done.
Qed.

(** *** Union, leaving *)
(** One step of one operand: [t'] is what is added to the distance *)
Lemma out_step M (S : R → Prop) (U : R → Prop) (f : R → option R) s : exact_out inf S f → (∀ u, S u ∨ ¬ S u) → (∀ u, 0 <= u → S u → U u) → (∀ u, M <= u → ¬ U u) → 0 <= s → U s →
  ∃ t, f s = Some t ∧ let t' := if valid_step inf t then t else 0 in 0 <= t' ∧ (∀ u, s <= u <= s + t' → nearby kPush U u) ∧ (∀ e, 0 < e → ∃ u, s + t' <= u < s + t' + e ∧ ¬ S u).
Proof using Hinf.
  intros E D C B Hs Us. pose proof inf_pos. pose proof kPush_pos. destruct (E s Hs) as (t & Ft & E1 & E2). exists t. split; [done|]. cbn zeta. unfold valid_step, rgeb.
  destruct (D s) as [Ss|Ss].
  - destruct (E1 Ss) as [(Li & K0 & K1 & K2)|(-> & N)].
    + destruct (rleb_spec 0 t) as [_|?]; [|lra]. destruct (rltb_spec t inf) as [_|?]; [|lra]. cbn [andb]. split; [done|]. split; [intros u Hu|done].
      destruct (Req_dec t 0) as [->|Nz]; [exists s; split; [lra|done]|]. exists (Rmax s (u - kPush)).
      assert (s <= Rmax s (u - kPush) < s + t ∧ Rmax s (u - kPush) <= u) as (G1 & G2) by (unfold Rmax; destruct (Rle_dec _ _); lra).
      split; [pose proof (Rmax_r s (u - kPush)); lra|]. apply C; [lra|]. apply K1. lra.
    + exfalso. set (u := Rmax s M). pose proof (Rmax_l s M). pose proof (Rmax_r s M). apply (B u); [done|]. apply C; [unfold u; lra|]. by apply N.
  - specialize (E2 Ss). destruct (rleb_spec 0 t) as [?|_]; [lra|]. cbn [andb]. split; [lra|]. split.
    + intros u Hu. exists s. split; [lra|done].
    + intros e He. exists s. split; [lra|done].
Qed.
Lemma union_loop_ok (X Y : placed) (p d : v3) (SX SY : R → Prop) (M : R)
  (TX := touched X p d) (TY := touched Y p d) :
  exact_out inf SX (λ s, pv_to_out_placed X (along p d s) d inf) → exact_out inf SY (λ s, pv_to_out_placed Y (along p d s) d inf) →
  (∀ u, SX u ∨ ¬ SX u) → (∀ u, SY u ∨ ¬ SY u) → (∀ s, 0 <= s → SX s → TX s) → (∀ s, 0 <= s → SY s → TY s) → (∀ s, M <= s → ¬ TX s) → (∀ s, M <= s → ¬ TY s) →
  ∀ n fuel s, (n < fuel)%nat → 0 <= s → M <= s + INR n * kPush → TX s →
  ∃ dist, union_out_loop inf fuel X Y p d s = Some dist ∧ s + kPush <= dist ∧ (∀ u, s <= u <= dist - kPush → nearby kPush (λ u, TX u ∨ TY u) u) ∧
    left_at p d SX SY X Y (dist - kPush).
Proof using Hinf.
  intros EX EY DX DY CX CY BX BY. pose proof kPush_pos as Hp.
  assert (∀ x, nearby kPush TX x → nearby kPush (λ u, TX u ∨ TY u) x) as NX by (intros x (u & ? & ?); exists u; tauto).
  assert (∀ x, nearby kPush TY x → nearby kPush (λ u, TX u ∨ TY u) x) as NY by (intros x (u & ? & ?); exists u; tauto).
  induction n as [|n IH]; intros fuel s Hf Hs Hn Ts.
  { cbn in Hn. exfalso. apply (BX s); [lra|done]. }
  rewrite S_INR in Hn. destruct fuel as [|fuel]; [lia|]. cbn [union_out_loop].
  destruct (out_step M SX TX _ s EX DX CX BX Hs Ts) as (t & Et & K). cbn zeta in K. destruct K as (K0 & K1 & K2). rewrite Et. cbn [mbind option_bind].
  set (t' := if valid_step inf t then t else 0) in *. clearbody t'. set (s1 := s + t' + kPush).
  destruct (pv_inside Y (along p d s1)) eqn:EI1; [|fold s1|].
  3:{ exists s1. split; [done|]. unfold s1. split; [lra|]. split; [intros u Hu; apply NX, K1; lra|]. left. split; [replace (s + t' + kPush - kPush + kPush) with s1 by (unfold s1; lra); intros KK; by apply KK|].
      intros e He. destruct (K2 e He) as (u & ? & ?). exists u. split; [lra|done]. }
  all: assert (TY s1) as T1 by (change (pv_inside Y (along p d s1) ≠ kOutside); by rewrite EI1).
  all: destruct (out_step M SY TY _ s1 EY DY CY BY ltac:(unfold s1; lra) T1) as (w & Ew & J); cbn zeta in J; destruct J as (J0 & J1 & J2); rewrite Ew; cbn [mbind option_bind].
  all: set (w' := if valid_step inf w then w else 0) in *; clearbody w'; set (s2 := s1 + w' + kPush).
  all: assert (∀ u, s <= u <= s1 + w' → nearby kPush (λ u, TX u ∨ TY u) u) as G
    by (intros u Hu; destruct (Rle_dec u (s + t')); [apply NX, K1; lra|]; destruct (Rle_dec s1 u); [apply NY, J1; lra|]; exists s1; split; [unfold s1 in *; lra|by right]).
  all: destruct (pv_inside X (along p d s2)) eqn:EI2.
  all: try (exists s2; split; [done|]; unfold s2; split; [unfold s1; lra|]; split; [intros u Hu; apply G; lra|]; right; split;
      [replace (s1 + w' + kPush - kPush + kPush) with s2 by (unfold s2; lra); intros KK; by apply KK|]; intros e He; destruct (J2 e He) as (u & ? & ?); exists u; split; [lra|done]).
  all: assert (TX s2) as T2 by (change (pv_inside X (along p d s2) ≠ kOutside); by rewrite EI2).
  all: destruct (IH fuel s2 ltac:(lia) ltac:(unfold s2, s1; lra) ltac:(unfold s2, s1; lra) T2) as (dist & R1 & R2 & R3 & R4).
  all: exists dist; split; [done|]; split; [unfold s2, s1 in R2; lra|]; split; [|done].
  all: intros u Hu; destruct (Rle_dec u (s1 + w')); [apply G; lra|]; destruct (Rle_dec s2 u); [apply R3; lra|]; exists s2; split; [unfold s2 in *; lra|by left].
Qed.

(** *** Intersection, entering *)
Definition weak (S : R → Prop) (s : R) : Prop := ∃ v, s <= v <= s + 2 * kTolerance ∧ ¬ S v.
Lemma entry_step M (S : R → Prop) (f : R → option R) s : exact_in inf S f → (∀ u, S u ∨ ¬ S u) → (∀ u, M <= u → ¬ S u) → M <= 10 ^ 20 → 0 <= s → weak S s →
  ∃ t, f s = Some t ∧ let d := Rmax t kTolerance in
    kTolerance <= d ∧ ((10 ^ 20 < d ∧ ∀ u, s <= u → nearby (2 * kTolerance) (λ u, ¬ S u) u) ∨
      (d <= 10 ^ 20 ∧ s < M ∧ (∀ u, s <= u < s + d → nearby (2 * kTolerance) (λ u, ¬ S u) u) ∧ nearby kTolerance S (s + d))).
Proof using Hinf.
  intros E D B HM Hs (v & Hv & Nv). pose proof kTolerance_pos as Ht. destruct (E s Hs) as (t & Ft & E1 & E2). exists t. split; [done|]. cbn zeta.
  assert (kTolerance < 1) as Ht1 by (unfold kTolerance; lra). assert (1 <= 10 ^ 20) by (apply pow_R1_Rle; lra).
  split; [apply Rmax_r|]. destruct (D s) as [Ss|Ss].
  - assert (s < M) as HsM by (destruct (Rlt_dec s M) as [?|?]; [done|exfalso; apply (B s); [lra|done]]).
    destruct (E2 Ss) as [Hneg|(-> & N)].
    + right. rewrite Rmax_right by lra. split; [lra|]. split; [done|]. split; [intros u Hu; exists v; split; [lra|done]|exists s; split; [lra|done]].
    + left. rewrite Rmax_left by lra. split; [done|]. intros u Hu. exists (u + kTolerance). split; [lra|]. apply N. lra.
  - destruct (E1 Ss) as [(Li & K0 & K1 & K2)|(-> & N)].
    + assert (s + t < M) as HtM.
      { destruct (Rlt_dec (s + t) M) as [?|?]; [done|]. exfalso. destruct (K2 1) as (u & ? & Su); [lra|]. apply (B u); [lra|done]. }
      right. split; [apply Rmax_lub; lra|]. split; [lra|]. split.
      * intros u Hu. destruct (Rlt_dec u (s + t)) as [Hl|Hl]; [exists u; split; [lra|apply K1; lra]|].
        assert (u < s + kTolerance) by (revert Hu; unfold Rmax; destruct (Rle_dec _ _); lra). exists s. split; [lra|done].
      * destruct (K2 kTolerance) as (u & ? & Su); [lra|]. exists u. split; [|done]. unfold Rmax. destruct (Rle_dec _ _); lra.
    + left. rewrite Rmax_left by lra. split; [done|]. intros u Hu. exists u. split; [lra|]. by apply N.
Qed.
Lemma inter_loop_ok (l r : placed) (p d : v3) (A B : R → Prop) (M : R) :
  (∀ s, pv_contains l (along p d s) = true ↔ A s) → (∀ s, pv_contains r (along p d s) = true ↔ B s) →
  exact_in inf A (λ s, pv_to_in l (along p d s) d inf) → exact_in inf B (λ s, pv_to_in r (along p d s) d inf) →
  (∀ u, M <= u → ¬ A u) → (∀ u, M <= u → ¬ B u) → M <= 10 ^ 20 →
  ∀ n fuel il ir s, (n < fuel)%nat → 0 <= s → M <= s + INR n * kTolerance → il && ir = false → (il = false → weak A s) → (ir = false → weak B s) →
  ∃ dist, inter_in_loop inf l r fuel d il ir (along p d s) s = Some dist ∧
    ((dist = inf ∧ missed_all (2 * kTolerance) (overlap A B) s) ∨
     (s < dist ∧ missed (2 * kTolerance) (overlap A B) s dist ∧ nearby kTolerance A dist ∧ nearby kTolerance B dist)).
Proof using Hinf.
  intros CA CB EA EB BA BB HM. pose proof kTolerance_pos as Ht.
  assert (∀ u, A u ∨ ¬ A u) as DA by (intros u; rewrite <- CA; destruct (pv_contains l _); naive_solver).
  assert (∀ u, B u ∨ ¬ B u) as DB by (intros u; rewrite <- CB; destruct (pv_contains r _); naive_solver).
  assert (∀ x, nearby (2 * kTolerance) (λ u, ¬ A u) x → nearby (2 * kTolerance) (λ u, ¬ overlap A B u) x) as NA by (intros x (u & ? & ?); exists u; unfold overlap; tauto).
  assert (∀ x, nearby (2 * kTolerance) (λ u, ¬ B u) x → nearby (2 * kTolerance) (λ u, ¬ overlap A B u) x) as NB by (intros x (u & ? & ?); exists u; unfold overlap; tauto).
  assert (∀ u, pv_contains l (along p d u) = true → nearby kTolerance A (u - kTolerance)) as QA by (intros u Hu; exists u; split; [lra|by apply CA]).
  assert (∀ u, pv_contains r (along p d u) = true → nearby kTolerance B (u - kTolerance)) as QB by (intros u Hu; exists u; split; [lra|by apply CB]).
  induction n as [|n IH]; intros fuel il ir s Hf Hs Hn Hne Wl Wr; (destruct fuel as [|fuel]; [lia|]); cbn [inter_in_loop].
  - (* beyond both *)
    cbn in Hn. destruct il; [destruct ir; [done|]|].
    + destruct (entry_step M B _ s EB DB BB HM Hs (Wr eq_refl)) as (t & Et & K). cbn zeta in K. destruct K as (K0 & [(K1 & K2)|(? & ? & _)]); [|lra].
      cbn [negb andb mbind option_bind]. rewrite Et. cbn [mbind option_bind]. unfold rgtb. destruct (rltb_spec (10 ^ 20) (Rmax t kTolerance)) as [_|?]; [|lra].
      exists inf. split; [done|]. left. split; [done|]. intros u Hu. by apply NB, K2.
    + destruct (entry_step M A _ s EA DA BA HM Hs (Wl eq_refl)) as (t & Et & K). cbn zeta in K. destruct K as (K0 & [(K1 & K2)|(? & ? & _)]); [|lra].
      cbn [negb andb mbind option_bind]. rewrite Et. cbn [mbind option_bind]. unfold rgtb. destruct (rltb_spec (10 ^ 20) (Rmax t kTolerance)) as [_|?]; [|lra].
      exists inf. split; [done|]. left. split; [done|]. intros u Hu. by apply NA, K2.
  - rewrite S_INR in Hn.
    assert (∀ d2, kTolerance <= d2 → missed (2 * kTolerance) (overlap A B) s (s + d2) → nearby kTolerance B (s + d2) →
      ∃ dist, (if pv_contains l (along (along (along p d s) d d2) d kTolerance) then Some (s + d2) else inter_in_loop inf l r fuel d false true (along (along p d s) d d2) (s + d2)) = Some dist ∧
      ((dist = inf ∧ missed_all (2 * kTolerance) (overlap A B) s) ∨ (s < dist ∧ missed (2 * kTolerance) (overlap A B) s dist ∧ nearby kTolerance A dist ∧ nearby kTolerance B dist))) as FB.
    { intros d2 H2 HMi HB. rewrite (along_along p d s d2), along_along. destruct (pv_contains l (along p d (s + d2 + kTolerance))) eqn:EC.
      - exists (s + d2). split; [done|]. right. split; [lra|]. split; [done|]. split; [|done]. specialize (QA _ EC). by replace (s + d2 + kTolerance - kTolerance) with (s + d2) in QA by lra.
      - destruct (IH fuel false true (s + d2)) as (dist & R1 & R2); [lia|lra|nra|done| |done|].
        { intros _. exists (s + d2 + kTolerance). split; [lra|]. rewrite <- CA. congruence. }
        exists dist. split; [done|]. destruct R2 as [(-> & R2)|(R2 & R3 & R4 & R5)]; [left|right]; (split; [lra|]).
        + intros u Hu. destruct (Rlt_dec u (s + d2)); [apply HMi; lra|apply R2; lra].
        + split; [|done]. intros u Hu. destruct (Rlt_dec u (s + d2)); [apply HMi; lra|apply R3; lra]. }
    assert (∀ d1, kTolerance <= d1 → missed (2 * kTolerance) (overlap A B) s (s + d1) → nearby kTolerance A (s + d1) →
      ∃ dist, (if pv_contains r (along (along (along p d s) d d1) d kTolerance) then Some (s + d1) else inter_in_loop inf l r fuel d true false (along (along p d s) d d1) (s + d1)) = Some dist ∧
      ((dist = inf ∧ missed_all (2 * kTolerance) (overlap A B) s) ∨ (s < dist ∧ missed (2 * kTolerance) (overlap A B) s dist ∧ nearby kTolerance A dist ∧ nearby kTolerance B dist))) as FA.
    { intros d1 H1 HMi HA. rewrite (along_along p d s d1), along_along. destruct (pv_contains r (along p d (s + d1 + kTolerance))) eqn:EC.
      - exists (s + d1). split; [done|]. right. split; [lra|]. split; [done|]. split; [done|]. specialize (QB _ EC). by replace (s + d1 + kTolerance - kTolerance) with (s + d1) in QB by lra.
      - destruct (IH fuel true false (s + d1)) as (dist & R1 & R2); [lia|lra|nra|done|done| |].
        { intros _. exists (s + d1 + kTolerance). split; [lra|]. rewrite <- CB. congruence. }
        exists dist. split; [done|]. destruct R2 as [(-> & R2)|(R2 & R3 & R4 & R5)]; [left|right]; (split; [lra|]).
        + intros u Hu. destruct (Rlt_dec u (s + d1)); [apply HMi; lra|apply R2; lra].
        + split; [|done]. intros u Hu. destruct (Rlt_dec u (s + d1)); [apply HMi; lra|apply R3; lra]. }
    unfold rgtb. destruct il; [destruct ir; [done|]|].
    + destruct (entry_step M B _ s EB DB BB HM Hs (Wr eq_refl)) as (t & Et & K). cbn zeta in K. cbn [negb andb mbind option_bind]. rewrite Et. cbn [mbind option_bind].
      set (d2 := Rmax t kTolerance) in *. clearbody d2. destruct K as (K0 & [(K1 & K2)|(K1 & K2 & K3 & K4)]).
      * destruct (rltb_spec (10 ^ 20) d2) as [_|?]; [|lra]. exists inf. split; [done|]. left. split; [done|]. intros u Hu. by apply NB, K2.
      * destruct (rltb_spec (10 ^ 20) d2) as [?|_]; [lra|]. destruct (rltb_spec d2 0) as [?|_]; [lra|]. apply FB; [done| |done]. intros u Hu. by apply NB, K3.
    + destruct (entry_step M A _ s EA DA BA HM Hs (Wl eq_refl)) as (t & Et & K). cbn zeta in K. cbn [negb andb mbind option_bind]. rewrite Et. cbn [mbind option_bind].
      set (d1 := Rmax t kTolerance) in *. clearbody d1. destruct K as (K0 & [(K1 & K2)|(K1 & K2 & K3 & K4)]).
      { destruct (rltb_spec (10 ^ 20) d1) as [_|?]; [|lra]. exists inf. split; [done|]. left. split; [done|]. intros u Hu. by apply NA, K2. }
      destruct (rltb_spec (10 ^ 20) d1) as [?|_]; [lra|]. destruct ir; cbn [negb andb mbind option_bind].
      * destruct (rltb_spec 0 d1) as [_|?]; [|lra]. apply FA; [done| |done]. intros u Hu. by apply NA, K3.
      * destruct (entry_step M B _ s EB DB BB HM Hs (Wr eq_refl)) as (t2 & Et2 & J). cbn zeta in J. rewrite Et2. cbn [mbind option_bind].
        set (d2 := Rmax t2 kTolerance) in *. clearbody d2. destruct J as (J0 & [(J1 & J2)|(J1 & J2 & J3 & J4)]).
        { destruct (rltb_spec (10 ^ 20) d2) as [_|?]; [|lra]. exists inf. split; [done|]. left. split; [done|]. intros u Hu. by apply NB, J2. }
        destruct (rltb_spec (10 ^ 20) d2) as [?|_]; [lra|]. destruct (rltb_spec d2 d1).
        -- apply FA; [done| |done]. intros u Hu. by apply NA, K3.
        -- apply FB; [done| |done]. intros u Hu. by apply NB, J3.
Qed.
(** The full function, with the test for starting inside both. *)
Lemma inter_to_in_ok (l r : placed) (p d : v3) (A B : R → Prop) (M smax : R) (n fuel : nat) :
  (∀ s, pv_contains l (along p d s) = true ↔ A s) → (∀ s, pv_contains r (along p d s) = true ↔ B s) →
  exact_in inf A (λ s, pv_to_in l (along p d s) d inf) → exact_in inf B (λ s, pv_to_in r (along p d s) d inf) →
  exact_out inf A (λ s, pv_to_out_placed l (along p d s) d smax) → exact_out inf B (λ s, pv_to_out_placed r (along p d s) d smax) →
  (∀ u, M <= u → ¬ A u) → (∀ u, M <= u → ¬ B u) → M <= 10 ^ 20 → (n < fuel)%nat → M <= INR n * kTolerance →
  ∃ dist, inter_to_in inf l r fuel p d smax = Some dist ∧
    ((dist = 0 ∧ A 0 ∧ B 0) ∨ (dist = inf ∧ missed_all (2 * kTolerance) (overlap A B) 0) ∨
     (0 < dist ∧ missed (2 * kTolerance) (overlap A B) 0 dist ∧ nearby kTolerance A dist ∧ nearby kTolerance B dist)).
Proof using Hinf.
  intros CA CB EA EB OA OB BA BB HM Hf Hn. pose proof kTolerance_pos as Ht. unfold inter_to_in.
  assert (∀ il ir, il && ir = false → (il = false → weak A 0) → (ir = false → weak B 0) → ∃ dist, inter_in_loop inf l r fuel d il ir p 0 = Some dist ∧
    ((dist = 0 ∧ A 0 ∧ B 0) ∨ (dist = inf ∧ missed_all (2 * kTolerance) (overlap A B) 0) ∨
     (0 < dist ∧ missed (2 * kTolerance) (overlap A B) 0 dist ∧ nearby kTolerance A dist ∧ nearby kTolerance B dist))) as F.
  { intros il ir H1 H2 H3. destruct (inter_loop_ok l r p d A B M CA CB EA EB BA BB HM n fuel il ir 0) as (dist & R1 & R2); [done|lra|lra|done..|].
    rewrite along_zero in R1. exists dist. split; [done|]. tauto. }
  pose proof (CA 0) as CA0. pose proof (CB 0) as CB0. rewrite along_zero in CA0, CB0.
  assert (∀ (S : R → Prop) f t, exact_out inf S f → S 0 → f 0 = Some t → t < 2 * kTolerance → weak S 0) as W.
  { intros S f t E S0 Ft Hlt. destruct (E 0) as (t' & Ft' & E1 & _); [lra|]. assert (t' = t) as -> by congruence. assert (kTolerance < 1) by (unfold kTolerance; lra). assert (1 <= 10 ^ 20) by (apply pow_R1_Rle; lra).
    destruct (E1 S0) as [(_ & K0 & K1 & K2)|(-> & _)]; [|lra]. destruct (K2 (2 * kTolerance - t)) as (u & ? & ?); [lra|]. exists u. split; [lra|done]. }
  destruct (pv_contains l p) eqn:El, (pv_contains r p) eqn:Er; cbn [andb].
  - destruct (OA 0) as (t1 & F1 & _); [lra|]. destruct (OB 0) as (t2 & F2 & _); [lra|].
    assert (A 0) as A0 by tauto. assert (B 0) as B0 by tauto.
    pose proof (W A _ t1 OA A0 F1) as W1. pose proof (W B _ t2 OB B0 F2) as W2. rewrite along_zero in F1, F2. rewrite F1. cbn [mbind option_bind]. rewrite F2. cbn [mbind option_bind].
    destruct (rltb_spec t1 (2 * kTolerance)), (rltb_spec t2 (2 * kTolerance)); cbn [andb]; [apply F; intros; try done; first [by apply W1|by apply W2]..|].
    exists 0. split; [done|]. by left.
  - apply F; [done|done|]. intros _. exists 0. split; [lra|]. rewrite <- CB0. done.
  - apply F; [done| |done]. intros _. exists 0. split; [lra|]. rewrite <- CA0. done.
  - apply F; [done| |]; intros _; exists 0; (split; [lra|]); [rewrite <- CA0|rewrite <- CB0]; done.
Qed.

(** *** Subtraction, entering *)
Section Sub.
Context (l r : placed) (p d : v3) (A B : R → Prop) (M smax : R).
Hypothesis CA : ∀ s, pv_contains l (along p d s) = true ↔ A s.
Hypothesis CB : ∀ s, pv_contains r (along p d s) = true ↔ B s.
Hypothesis EA : exact_in inf A (λ s, pv_to_in l (along p d s) d smax).
Hypothesis EB : exact_in inf B (λ s, pv_to_in r (along p d s) d smax).
Hypothesis OA : exact_out inf A (λ s, pv_to_out_placed l (along p d s) d inf).
Hypothesis OB : exact_out inf B (λ s, pv_to_out_placed r (along p d s) d smax).
Hypothesis BA : ∀ u, M <= u → ¬ A u.
Hypothesis BB : ∀ u, M <= u → ¬ B u.
Hypothesis HM : M + kTolerance <= inf.
Hypothesis Gap : no_narrow_gap B.
Definition sub_ok (s : R) (res : option R) : Prop :=
  ∃ dist, res = Some dist ∧
    ((dist = inf ∧ missed_all kPush (except A B) s) ∨
     (s <= dist ∧ missed kPush (except A B) s (dist - kPush) ∧ nearby kPush (except A B) dist)).
Lemma sub_step fuel ir s : 0 <= s → (ir = false → ¬ B s) → (s < M → ∀ s2, s + kPush <= s2 → sub_ok s2 (sub_in_loop inf l r fuel d smax true (along p d s2) s2)) →
  sub_ok s (sub_in_loop inf l r (S fuel) d smax ir (along p d s) s).
Proof using All.
  intros Hs Hir IH. pose proof kTolerance_pos as Ht. pose proof kPush_pos as Hp. pose proof tol_push as Htp. pose proof inf_pos as Hi.
  assert (∀ u, A u ∨ ¬ A u) as DA by (intros u; rewrite <- CA; destruct (pv_contains l _); naive_solver).
  assert (∀ u, B u ∨ ¬ B u) as DB by (intros u; rewrite <- CB; destruct (pv_contains r _); naive_solver).
  assert (∀ x, ¬ A x → nearby kPush (λ u, ¬ except A B u) x) as NA by (intros x ?; exists x; unfold except; split; [lra|tauto]).
  assert (∀ x u, B u → x - kPush <= u <= x + kPush → nearby kPush (λ u, ¬ except A B u) x) as NB by (intros x u ??; exists u; unfold except; split; [lra|tauto]).
  cbn [sub_in_loop].
  assert (∀ s1, s <= s1 → ¬ B s1 → missed kPush (except A B) s s1 → sub_ok s (
    d2 ← pv_to_in l (along p d s1) d smax;
    let d2 := Rmax d2 0 in
    if reqb d2 inf then Some inf else
    d1 ← pv_to_in r (along p d s1) d smax;
    if rltb d2 (d1 - kTolerance) then Some (s1 + (d2 + kPush)) else
    sub_in_loop inf l r fuel d smax true (along (along p d s1) d (if valid_step inf d1 then d1 + kPush else kPush)) (s1 + (if valid_step inf d1 then d1 + kPush else 0)))) as P2.
  { intros s1 H1 N1 Mi. destruct (EA s1 ltac:(lra)) as (t2 & F2 & A1 & A2). rewrite F2. cbn [mbind option_bind]. cbn zeta.
    assert ((Rmax t2 0 = inf ∧ missed_all kPush (except A B) s1) ∨
      (Rmax t2 0 < inf ∧ 0 <= Rmax t2 0 ∧ s1 + Rmax t2 0 < M ∧ (∀ u, s1 <= u < s1 + Rmax t2 0 → ¬ A u) ∧ ∀ e, 0 < e → ∃ u, s1 + Rmax t2 0 <= u < s1 + Rmax t2 0 + e ∧ A u)) as K.
    { destruct (DA s1) as [Sa|Sa].
      - destruct (A2 Sa) as [?|(-> & N)].
        + right. rewrite Rmax_right by lra. split; [lra|]. split; [lra|]. split; [|split; [intros; lra|intros e He; exists s1; split; [lra|done]]].
          destruct (Rlt_dec (s1 + 0) M); [done|]. exfalso. apply (BA s1); [lra|done].
        + left. rewrite Rmax_left by lra. split; [done|]. intros u Hu. exists (u + kTolerance). split; [lra|]. intros [K _]. revert K. apply N. lra.
      - destruct (A1 Sa) as [(Li & K0 & K1 & K2)|(-> & N)].
        + right. rewrite Rmax_left by lra. split; [done|]. split; [done|]. split; [|done]. destruct (Rlt_dec (s1 + t2) M); [done|]. exfalso. destruct (K2 1) as (u & ? & ?); [lra|]. apply (BA u); [lra|done].
        + left. rewrite Rmax_left by lra. split; [done|]. intros u Hu. apply NA. by apply N. }
    set (d2 := Rmax t2 0) in *. clearbody d2. clear A1 A2.
    destruct K as [(-> & K)|(K0 & K1 & KM & K2 & K3)].
    { destruct (reqb_spec inf inf) as [_|?]; [|done]. exists inf. split; [done|]. left. split; [done|]. intros u Hu. destruct (Rlt_dec u s1); [apply Mi; lra|apply K; lra]. }
    destruct (reqb_spec d2 inf) as [?|_]; [lra|]. destruct (EB s1 ltac:(lra)) as (t1 & F1 & B1 & _). rewrite F1. cbn [mbind option_bind].
    specialize (B1 N1). destruct (rltb_spec d2 (t1 - kTolerance)) as [Hlt|Hge].
    - exists (s1 + (d2 + kPush)). split; [done|]. right. split; [lra|]. split.
      + intros u Hu. destruct (Rlt_dec u s1); [apply Mi; lra|]. apply NA, K2. lra.
      + destruct (K3 kTolerance) as (u & Hu & Au); [lra|]. exists u. split; [lra|]. split; [done|].
        destruct B1 as [(_ & _ & B2 & _)|(-> & N)]; [apply B2; lra|apply N; lra].
    - destruct B1 as [(Li & T0 & B2 & B3)|(-> & N)]; [|exfalso; lra].
      unfold valid_step, rgeb. destruct (rleb_spec 0 t1) as [_|?]; [|lra]. destruct (rltb_spec t1 inf) as [_|?]; [|lra]. cbn [andb].
      rewrite along_along. destruct (IH ltac:(lra) (s1 + (t1 + kPush)) ltac:(lra)) as (dist & R1 & R2). exists dist. split; [done|].
      assert (missed kPush (except A B) s (s1 + (t1 + kPush))) as Mi2.
      { intros u Hu. destruct (Rlt_dec u s1); [apply Mi; lra|]. destruct (Rlt_dec u (s1 + d2)); [apply NA, K2; lra|].
        destruct (B3 (kPush - kTolerance)) as (v & Hv & Bv); [lra|]. apply (NB _ v Bv). lra. }
      destruct R2 as [(-> & R2)|(R2 & R3 & R4)]; [left|right]; (split; [lra|]).
      + intros u Hu. destruct (Rlt_dec u (s1 + (t1 + kPush))); [apply Mi2; lra|apply R2; lra].
      + split; [|done]. intros u Hu. destruct (Rlt_dec u (s1 + (t1 + kPush))); [apply Mi2; lra|apply R3; lra]. }
  destruct ir.
  2:{ cbn [mbind option_bind]. apply P2; [lra|by apply Hir|]. intros u Hu. lra. }
  destruct (OB s Hs) as (t & Ft & O1 & O2). rewrite Ft. cbn [mbind option_bind]. clear Hir.
  set (x := if valid_step inf t then t + kPush else 0).
  assert (0 <= x ∧ ¬ B (s + x) ∧ missed kPush (except A B) s (s + x)) as (X0 & X1 & X2).
  { unfold x, valid_step, rgeb. destruct (DB s) as [Sb|Sb].
    - destruct (O1 Sb) as [(Li & K0 & K1 & K2)|(-> & N)].
      + destruct (rleb_spec 0 t) as [_|?]; [|lra]. destruct (rltb_spec t inf) as [_|?]; [|lra]. cbn [andb]. split; [lra|]. split.
        { replace (s + (t + kPush)) with (s + t + kPush) by lra. apply Gap; [done|done|]. by split. }
        intros u Hu. destruct (Req_dec t 0) as [->|Nz]; [apply (NB _ s Sb); lra|]. apply (NB _ (Rmax s (u - kPush))); unfold Rmax; destruct (Rle_dec _ _); try lra; apply K1; lra.
      + exfalso. apply (BB (Rmax s M)); [apply Rmax_r|]. apply N. apply Rmax_l.
    - specialize (O2 Sb). destruct (rleb_spec 0 t) as [?|_]; [lra|]. cbn [andb]. split; [lra|]. rewrite Rplus_0_r. split; [done|]. intros u Hu. lra. }
  clearbody x. rewrite along_along. destruct (pv_contains l (along p d (s + x))) eqn:Ec.
  2:{ cbn [mbind option_bind]. apply P2; [lra|done|done]. }
  destruct (OA (s + x) ltac:(lra)) as (chk & Fc & _). rewrite Fc. cbn [mbind option_bind].
  destruct (rgtb chk kPush); [|apply P2; [lra|done|done]].
  exists (s + x). split; [done|]. right. split; [lra|]. split; [intros u Hu; apply X2; lra|]. exists (s + x). split; [lra|]. split; [by apply CA|done].
Qed.
Lemma sub_loop_ok : ∀ n fuel ir s, (n < fuel)%nat → 0 <= s → M <= s + INR n * kPush → (ir = false → ¬ B s) →
  sub_ok s (sub_in_loop inf l r fuel d smax ir (along p d s) s).
Proof using All.
  pose proof kPush_pos as Hp. induction n as [|n IH]; intros fuel ir s Hf Hs Hn Hir; (destruct fuel as [|fuel]; [lia|]); (apply sub_step; [done|done|]).
  - cbn in Hn. intros; lra.
  - rewrite S_INR in Hn. intros _ s2 H2. apply IH; [lia|lra|lra|done].
Qed.
Lemma sub_to_in_ok n fuel : (n < fuel)%nat → M <= INR n * kPush → sub_ok 0 (bool_to_in inf l r fuel kSubtraction p d smax).
Proof using All.
  intros Hf Hn. cbn [bool_to_in]. pose proof (sub_loop_ok n fuel (pv_contains r p) 0 Hf ltac:(lra) ltac:(lra)) as H. rewrite along_zero in H. apply H.
  intros E. rewrite <- CB, along_zero. congruence.
Qed.
End Sub.
(** Union, leaving: the full function. *)
Lemma union_to_out_ok (l r : placed) (p d : v3) (A B : R → Prop) (M : R) (n fuel : nat)
  (TA := touched l p d) (TB := touched r p d) :
  exact_out inf A (λ s, pv_to_out_placed l (along p d s) d inf) → exact_out inf B (λ s, pv_to_out_placed r (along p d s) d inf) →
  (∀ u, A u ∨ ¬ A u) → (∀ u, B u ∨ ¬ B u) → (∀ s, 0 <= s → A s → TA s) → (∀ s, 0 <= s → B s → TB s) → (∀ s, M <= s → ¬ TA s) → (∀ s, M <= s → ¬ TB s) →
  (n < fuel)%nat → M <= INR n * kPush → TA 0 ∨ TB 0 →
  ∃ t, union_to_out inf l r fuel p d = Some t ∧ 0 <= t ∧ (∀ u, 0 <= u <= t → nearby kPush (λ u, TA u ∨ TB u) u) ∧ left_at p d A B l r t.
Proof using Hinf.
  intros EA EB DA DB CA CB BA BB Hf Hn H0. unfold union_to_out. assert (TA 0 ↔ pv_inside l p ≠ kOutside) as T0 by (unfold TA, touched, pv_inside; by rewrite along_zero).
  assert (TB 0 ↔ pv_inside r p ≠ kOutside) as T1 by (unfold TB, touched, pv_inside; by rewrite along_zero).
  assert (∀ dist, pv_inside l p ≠ kOutside ∨ pv_inside r p ≠ kOutside → Some (match pv_inside l p, pv_inside r p with
        | kOutside, kOutside => if rltb (dist - kPush) kTolerance then - kTolerance else dist - kPush | _, _ => dist - kPush end) = Some (dist - kPush)) as R
    by (intros dist [?|?]; destruct (pv_inside l p), (pv_inside r p); done).
  destruct (inside_eq_dec (pv_inside l p) kOutside) as [Eo|Eo].
  - destruct (union_loop_ok r l p d B A M EB EA DB DA CB CA BB BA n fuel 0) as (dist & R1 & R2 & R3 & R4); [done|lra|lra|tauto|].
    exists (dist - kPush). assert (match pv_inside l p with kOutside => union_out_loop inf fuel r l p d 0 | _ => union_out_loop inf fuel l r p d 0 end = Some dist) as ->
      by (rewrite Eo; exact R1).
    cbn [mbind option_bind]. split; [apply R; tauto|]. split; [lra|]. split; [|destruct R4; [by right|by left]].
    intros u Hu. destruct (R3 u Hu) as (v & ? & ?). exists v. tauto.
  - destruct (union_loop_ok l r p d A B M EA EB DA DB CA CB BA BB n fuel 0) as (dist & R1 & R2 & R3 & R4); [done|lra|lra|tauto|].
    exists (dist - kPush). assert (match pv_inside l p with kOutside => union_out_loop inf fuel r l p d 0 | _ => union_out_loop inf fuel l r p d 0 end = Some dist) as ->
      by (destruct (pv_inside l p); done).
    cbn [mbind option_bind]. split; [apply R; tauto|]. split; [lra|]. split; [done|done].
Qed.
End Rays.
(** ** From solids to rays *)
Lemma transform_along t p d s : transform t (along p d s) = along (transform t p) (transform_direction t d) s.
Proof. change (rotate_general t (do_translation t (along p d s)) = along (rotate_general t (do_translation t p)) (rotate_general t d) s). apply v3_eq; cbn; ring. Qed.
Lemma entry_is_ext inf (A B : R → Prop) s t : (∀ u, A u ↔ B u) → entry_is inf A s t → entry_is inf B s t.
Proof.
  intros E [(L & H0 & H1 & H2)|(-> & N)]; [left|right]; (split; [done|]); [split; [done|]; split|].
  - intros u Hu. rewrite <- E. by apply H1.
  - intros e He. destruct (H2 e He) as (u & ? & ?). exists u. by rewrite <- E.
  - intros u Hu. rewrite <- E. by apply N.
Qed.
Lemma exit_is_ext inf (A B : R → Prop) s t : (∀ u, A u ↔ B u) → exit_is inf A s t → exit_is inf B s t.
Proof.
  intros E [(L & H0 & H1 & H2)|(-> & N)]; [left|right]; (split; [done|]); [split; [done|]; split|].
  - intros u Hu. rewrite <- E. by apply H1.
  - intros e He. destruct (H2 e He) as (u & ? & ?). exists u. by rewrite <- E.
  - intros u Hu. rewrite <- E. by apply N.
Qed.
Lemma on_ray_put t S p d u : on_ray (put t S) p d u ↔ on_ray S (transform t p) (transform_direction t d) u.
Proof. unfold on_ray, put. by rewrite transform_along. Qed.
Lemma placed_in_ray inf v S p d smax : placed_in_ok inf v S p d smax → exact_in inf (on_ray (put (pl_tr v) S) p d) (λ s, pv_to_in v (along p d s) d smax).
Proof.
  intros H s Hs. destruct (H s Hs) as (t & Ft & H1 & H2). exists t. unfold pv_to_in. rewrite transform_along. split; [done|]. rewrite on_ray_put. split.
  - intros N. eapply entry_is_ext; [|by apply H1]. intros u. by rewrite on_ray_put.
  - intros P. destruct (H2 P) as [?|(? & N)]; [by left|right]. split; [done|]. intros u Hu. rewrite on_ray_put. by apply N.
Qed.
Lemma placed_out_ray inf v S p d smax : placed_out_ok inf v S p d smax → exact_out inf (on_ray (put (pl_tr v) S) p d) (λ s, pv_to_out_placed v (along p d s) d smax).
Proof.
  intros H s Hs. destruct (H s Hs) as (t & Ft & H1 & H2). exists t. unfold pv_to_out_placed. rewrite transform_along. split; [done|]. rewrite on_ray_put. split; [|done].
  intros N. eapply exit_is_ext; [|by apply H1]. intros u. by rewrite on_ray_put.
Qed.
Lemma contains_ray v S p d : decides (s_contains (pl_shape v)) S → ∀ s, pv_contains v (along p d s) = true ↔ on_ray (put (pl_tr v) S) p d s.
Proof. intros H s. apply H. Qed.
Lemma decided v S p d : decides (s_contains (pl_shape v)) S → ∀ u, on_ray (put (pl_tr v) S) p d u ∨ ¬ on_ray (put (pl_tr v) S) p d u.
Proof. intros H u. rewrite <- (contains_ray v S p d H u). destruct (pv_contains _ _); naive_solver. Qed.
(** ** Extents *)
Lemma transformed_extent_one inf v q : pl_tr v = tr_one → in_box (Box (s_extent (pl_shape v)).1 (s_extent (pl_shape v)).2) q → in_box (transformed_extent inf v) q.
Proof.
  intros T H. unfold transformed_extent, pv_extent. rewrite T. assert (∀ k, inverse_transform tr_one k = k) as I by (intros k; apply v3_eq; cbn; ring).
  unfold placed_extent. cbn [hasr tr_one]. rewrite !I. cbn [bmin bmax]. rewrite <- (I q). eapply image_in_box; [|exact H]. intros c Hc. rewrite I.
  apply fold_in. apply elem_of_list_fmap. exists c. split; [by rewrite I|]. by apply corners_elem.
Qed.
(** ** The example solid *)
Lemma slab_contains inf h : decides (s_contains (slab inf h)) (λ p, - h <= vx p < h).
Proof. intros p. cbn. rewrite andb_true_iff, rleb_true, rltb_true. tauto. Qed.
Lemma slab_in inf h p smax : 0 < h → 2 * Rabs (vx p) + 2 * h < inf → ray_in inf (slab inf h) (λ p, - h <= vx p < h) p x_axis smax.
Proof.
  intros Hh Hi s Hs. cbn [slab s_to_in]. eexists. split; [done|]. unfold on_ray. assert (∀ u, vx (along p x_axis u) = vx p + u) as E by (intros u; cbn; ring).
  rewrite E. unfold entry_is, entry_after, never. setoid_rewrite E. assert (- Rabs (vx p) <= vx p) by (pose proof (Rle_abs (- vx p)) as K; rewrite Rabs_Ropp in K; lra).
  destruct (rltb_spec (vx p + s) (- h)); [|destruct (rltb_spec (vx p + s) h)]; (split; intros K; try lra).
  - left. split; [lra|]. split; [lra|]. split; [intros; lra|]. intros e He. exists (s + (- h - (vx p + s))). lra.
  - right. split; [done|]. intros. lra.
Qed.
Lemma slab_out inf h p smax : 0 < h → 2 * Rabs (vx p) + 2 * h < inf → ray_out inf (slab inf h) (λ p, - h <= vx p < h) p x_axis smax.
Proof.
  intros Hh Hi s Hs. cbn [slab s_to_out]. eexists. split; [done|]. unfold on_ray. assert (∀ u, vx (along p x_axis u) = vx p + u) as E by (intros u; cbn; ring).
  rewrite E. unfold exit_is, exit_after, always. setoid_rewrite E.
  destruct (rleb_spec (- h) (vx p + s)); [destruct (rltb_spec (vx p + s) h)|]; cbn [andb]; (split; intros K; try lra).
  left. split; [pose proof (Rabs_pos (vx p)); lra|]. split; [lra|]. split; [intros; lra|]. intros e He. exists (s + (h - (vx p + s))). lra.
Qed.
Lemma translate_x x p : transform (tr_translation x 0 0) p = V3 (vx p - x) (vy p) (vz p).
Proof. rewrite transform_eq. apply v3_eq; cbn; ring. Qed.
Lemma translate_dir x d : transform_direction (tr_translation x 0 0) d = d.
Proof. rewrite transform_direction_eq. apply v3_eq; cbn; ring. Qed.
Lemma translate_back x d : inverse_transform_direction (tr_translation x 0 0) d = d.
Proof. apply v3_eq; cbn; ring. Qed.
