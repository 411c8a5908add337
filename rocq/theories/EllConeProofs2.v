(** Elliptical cones: along a ray. *)
From Coq Require Import Reals Lra Lia Bool ZArith Psatz.
From stdpp Require Import base list option numbers tactics.
From Verif Require Import Real3 AABBModel BoxModel BoxProofs PlanesModel PlanesProofs ConeSpec ConeProofs EllTubeModel EllTubeSpec EllTubeProofs EllTubeProofs2 EllTubeProofs3 TubeProofs PolyconeSpec EllConeModel EllConeSpec EllConeProofs PropEllCone.
Import stdpp.list.
Local Open Scope R_scope.

(** A quadratic that is never negative has double zeros *)
Lemma touch α β γ x : (∀ u, 0 <= α * (u * u) + 2 * β * u + γ) -> α * (x * x) + 2 * β * x + γ = 0 -> α * x + β = 0.
Proof.
  intros P Z. set (k := α * x + β). set (δ := / (1 + Rabs α)). assert (A : 0 < 1 + Rabs α) by (pose proof (Rabs_pos α); lra). assert (D0 : 0 < δ) by (by apply Rinv_0_lt_compat). assert (D1 : δ * (1 + Rabs α) = 1) by (unfold δ; field; lra).
  assert (AD : α * δ <= 1). { pose proof (Rle_abs α) as L. clearbody δ. nra. }
  specialize (P (x - δ * k)). assert (E : α * ((x - δ * k) * (x - δ * k)) + 2 * β * (x - δ * k) + γ = δ * (k * k) * (α * δ - 2)). { replace γ with (- (α * (x * x) + 2 * β * x)) by lra. unfold k. ring. }
  rewrite E in P. destruct (Req_dec k 0) as [|N]; [done|]. exfalso. assert (K : 0 < k * k) by (apply Rsqr_pos_lt; done). assert (Q : 0 < δ * (k * k)) by (by apply Rmult_lt_0_compat). set (q := δ * (k * k)) in *. clearbody q. nra.
Qed.
Section Core.
Variables A B C z w t1 t2 : R.
Hypothesis HA : A <> 0.
Hypothesis G : ∀ u, 0 <= A * (u * u) + 2 * B * u + C + (z + w * u) * (z + w * u).
Hypothesis F : ∀ u, A * (u * u) + 2 * B * u + C = A * (u - t1) * (u - t2).
Hypothesis T : t1 <= t2.
Hypothesis HC : C <= 0.
Hypothesis Hz : z <= 0.
Notation N u := (z + w * u <= 0 /\ A * (u * u) + 2 * B * u + C <= 0).
(** Through the apex the equation has a double root *)
Lemma apex_double x : z + w * x = 0 -> A * (x * x) + 2 * B * x + C = 0 -> ∀ u, A * (u * u) + 2 * B * u + C = A * ((u - x) * (u - x)).
Proof using G.
  clear F T HC Hz HA. intros Z V u. assert (P : ∀ u, 0 <= (A + w * w) * (u * u) + 2 * (B + z * w) * u + (C + z * z)) by (intros v; pose proof (G v) as Q; clear - Q; lra).
  pose proof (touch _ _ _ x P) as K. assert (z = - (w * x)) as -> by lra. rewrite <- (Rplus_0_r (A * ((u - x) * (u - x)))). assert (K0 : (A + w * w) * x + (B + - (w * x) * w) = 0) by (apply K; clear - V; lra). assert (B = - (A * x)) as -> by (clear - K0; lra). assert (C = A * (x * x)) as -> by (clear - V; lra). ring.
Qed.
Lemma at_apex : 0 <= z -> z = 0 /\ ∀ u, A * (u * u) + 2 * B * u + C = A * (u * u).
Proof using HA G F T HC Hz.
  intros Z. assert (z = 0) as Z0 by lra. split; [done|]. pose proof (G 0) as G0. intros u. rewrite (apex_double 0); [ring|lra|]. rewrite Z0 in G0. lra.
Qed.
Lemma apex_between : w <> 0 -> 0 <= A * (- z / w - t1) * (- z / w - t2).
Proof using HA G F T HC Hz. intros W. rewrite <- F. pose proof (G (- z / w)) as Q. replace (z + w * (- z / w)) with 0 in Q by (field; done). lra. Qed.
Lemma out_pos : 0 < A -> t1 <= 0 <= t2.
Proof using HA G F T HC Hz.
  intros P. pose proof (F 0) as F0. assert (C = A * (t1 * t2)) by lra. assert (t1 * t2 <= 0) by (clear - H HC P; nra). split; apply Rnot_lt_le; intros L; clear - L T H0; nra.
Qed.
Lemma out_now u : 0 < A -> 0 <= z + w * t2 -> 0 < u -> ~ N u.
Proof using HA G F T HC Hz.
  intros P Z U [_ V]. destruct (out_pos P) as [O1 O2]. destruct (Rle_dec 0 z) as [Z0|Z0].
  - destruct (at_apex Z0) as [_ E]. rewrite E in V. clear - P U V. assert (0 < A * (u * u)) by (apply Rmult_lt_0_compat; nra). lra.
  - assert (W : 0 < w) by (apply Rnot_le_lt; intros L; clear - L Z Z0 O2; nra). pose proof (apex_between ltac:(lra)) as X. set (x := - z / w) in *. assert (XE : w * x = - z) by (unfold x; field; lra). assert (X0 : 0 < x) by (clear - XE W Z0; nra). assert (X2 : x <= t2) by (clear - XE W Z; nra).
    assert (E0 : A * (x - t1) * (x - t2) = 0). { assert (0 < A * (x - t1)) by (apply Rmult_lt_0_compat; lra). assert (A * (x - t1) * (x - t2) <= 0) by (clear - H X2; nra). lra. }
    rewrite <- F in E0. pose proof (apex_double x ltac:(lra) E0 0) as D. assert (0 < A * ((0 - x) * (0 - x))) by (apply Rmult_lt_0_compat; [done|]; clear - X0; nra). rewrite <- D in H. lra.
Qed.
Lemma out_top u : 0 <= z -> 0 <= w -> (w = 0 -> 0 < A) -> 0 < u -> ~ N u.
Proof using HA G F T HC Hz.
  intros Z W WA U [V1 V2]. destruct (at_apex Z) as [Z0 E]. destruct (Req_dec w 0) as [W0|W0].
  - rewrite E in V2. specialize (WA W0). assert (0 < A * (u * u)) by (apply Rmult_lt_0_compat; nra). lra.
  - rewrite Z0 in V1. clear - V1 W W0 U. assert (0 < w * u) by (apply Rmult_lt_0_compat; lra). lra.
Qed.
Lemma out_flat u : 0 < A -> z + w * t2 < 0 -> 0 <= u -> (N u <-> u <= t2).
Proof using HA G F T HC Hz.
  intros P Z U. destruct (out_pos P) as [O1 O2]. rewrite F. split.
  - intros [_ V]. apply Rnot_lt_le. intros L. assert (0 < A * (u - t1)) by (apply Rmult_lt_0_compat; lra). assert (0 < A * (u - t1) * (u - t2)) by (apply Rmult_lt_0_compat; lra). lra.
  - intros L. split; [clear - L U Z Hz; destruct (Rle_dec w 0); nra|]. assert (0 <= A * (u - t1)) by (apply Rmult_le_pos; lra). clear - H L. nra.
Qed.
Lemma out_up u : A < 0 -> 0 < w -> z < 0 -> 0 <= u -> 0 <= t1 /\ (N u <-> u <= t1).
Proof using HA G F T HC Hz.
  intros P W Z U. pose proof (apex_between ltac:(lra)) as X. set (x := - z / w) in *. assert (XE : w * x = - z) by (unfold x; field; lra). assert (X0 : 0 < x) by (clear - XE W Z; nra).
  assert (X1 : (x - t1) * (x - t2) <= 0) by (clear - X P; nra). assert (X2 : t1 <= x <= t2) by (split; apply Rnot_lt_le; intros L; clear - L X1 T; nra). pose proof (F 0) as F0. assert (CE : C = A * (t1 * t2)) by lra. assert (TT : 0 <= t1 * t2) by (clear - CE HC P; nra). assert (T1 : 0 <= t1) by (apply Rnot_lt_le; intros L; clear - L TT X2 X0; nra). split; [done|]. split.
  - intros [V1 V2]. apply Rnot_lt_le. intros L. assert (UX : u <= x) by (clear - V1 XE W; nra). rewrite F in V2. assert (Q : 0 <= (u - t1) * (u - t2)) by (clear - V2 P; nra). assert (U2 : u = t2) by (apply Rle_antisym; [lra|]; apply Rnot_lt_le; intros L'; clear - L L' Q; nra). assert (UE : u = x) by lra. assert (E0 : A * (x * x) + 2 * B * x + C = 0) by (rewrite F, <- UE, U2; ring).
    pose proof (apex_double x ltac:(lra) E0 t1) as D. rewrite F in D. replace (A * (t1 - t1) * (t1 - t2)) with 0 in D by ring. symmetry in D. apply Rmult_integral in D. destruct D as [D|D]; [lra|]. assert (t1 < x) by lra. clear - D H. nra.
  - intros L. split; [clear - L X2 XE W; nra|]. rewrite F. assert (0 <= (u - t1) * (u - t2)) by (clear - L T; nra). clear - H P. nra.
Qed.
Lemma out_down u : A < 0 -> w < 0 -> 0 <= u -> N u.
Proof using HA G F T HC Hz.
  intros P W U. split; [clear - Hz W U; nra|]. pose proof (apex_between ltac:(lra)) as X. set (x := - z / w) in *. assert (XE : w * x = - z) by (unfold x; field; lra). assert (X0 : x <= 0) by (clear - XE W Hz; nra).
  assert (X1 : (x - t1) * (x - t2) <= 0) by (clear - X P; nra). assert (X2 : t1 <= x <= t2) by (split; apply Rnot_lt_le; intros L; clear - L X1 T; nra). pose proof (F 0) as F0. assert (CE : C = A * (t1 * t2)) by lra. assert (TT : 0 <= t1 * t2) by (clear - CE HC P; nra).
  destruct (Rle_dec t2 0) as [L|L].
  - rewrite F. assert (0 <= (u - t1) * (u - t2)) by (clear - L T U; nra). clear - H P. nra.
  - assert (x = 0) as Z. { destruct (Req_dec t1 0); [lra|]. exfalso. clear - H X2 X0 L TT. assert (t1 < 0) by lra. nra. } assert (z = 0) by (rewrite Z in XE; lra). destruct (at_apex ltac:(lra)) as [_ E]. rewrite E. clear - P. assert (0 <= u * u) by nra. nra.
Qed.
End Core.
