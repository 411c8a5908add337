(** C86: which of the drawn points the pickers of the ellipse take: the first that is accepted. *)
From Coq Require Import Reals Lra Lia Bool ZArith Psatz.
From stdpp Require Import base list option numbers tactics.
From Verif Require Import Real3 AABBModel BoxModel EllTubeModel.
Import stdpp.list.
Local Open Scope R_scope.

(** How wide the ellipse is seen from the angle of the number v. *)
Definition seen (A B v : R) : R := R_sqrt.sqrt (B * cos (2 * PI * v) * (B * cos (2 * PI * v)) + A * sin (2 * PI * v) * (A * sin (2 * PI * v))).
Lemma on_loop_first n A B mu x y u k : (k < n)%nat → (∀ j, (j < k)%nat → seen A B (u (2 * j)%nat) < mu * u (2 * j + 1)%nat) → mu * u (2 * k + 1)%nat <= seen A B (u (2 * k)%nat) →
  on_ellipse_loop n A B mu x y u = (cos (2 * PI * u (2 * k)%nat), sin (2 * PI * u (2 * k)%nat)).
Proof.
  revert x y u k. induction n as [|n IH]; intros x y u k Hk Hr Ha; [lia|]. cbn [on_ellipse_loop]. change (R_sqrt.sqrt _) with (seen A B (u 0%nat)). destruct k as [|k].
  - change (2 * 0 + 1)%nat with 1%nat in Ha. change (2 * 0)%nat with 0%nat in *. destruct (rleb_spec (mu * u 1%nat) (seen A B (u 0%nat))); [done|lra].
  - pose proof (Hr 0%nat ltac:(lia)) as R0. change (2 * 0 + 1)%nat with 1%nat in R0. change (2 * 0)%nat with 0%nat in R0. destruct (rleb_spec (mu * u 1%nat) (seen A B (u 0%nat))); [lra|].
    rewrite (IH _ _ _ k); [|lia| |].
    + by replace (2 + 2 * k)%nat with (2 * Datatypes.S k)%nat by lia.
    + intros j Hj. specialize (Hr (Datatypes.S j) ltac:(lia)). replace (2 + 2 * j)%nat with (2 * Datatypes.S j)%nat by lia. by replace (2 + (2 * j + 1))%nat with (2 * Datatypes.S j + 1)%nat by lia.
    + replace (2 + 2 * k)%nat with (2 * Datatypes.S k)%nat by lia. by replace (2 + (2 * k + 1))%nat with (2 * Datatypes.S k + 1)%nat by lia.
Qed.
(** The picker on the ellipse takes the first pair of numbers whose second is below the width seen, and turns by the first. *)
Theorem C86_on_ellipse_first a b x0 y0 u k : (k < 1000)%nat →
  (∀ j, (j < k)%nat → seen (Rabs a) (Rabs b) (u (2 * j)%nat) < Rmax (Rabs a) (Rabs b) * u (2 * j + 1)%nat) → Rmax (Rabs a) (Rabs b) * u (2 * k + 1)%nat <= seen (Rabs a) (Rabs b) (u (2 * k)%nat) →
  random_on_ellipse a b x0 y0 u = (Rabs a * cos (2 * PI * u (2 * k)%nat), Rabs b * sin (2 * PI * u (2 * k)%nat)).
Proof. intros Hk Hr Ha. unfold random_on_ellipse. by rewrite (on_loop_first _ _ _ _ _ _ _ k Hk Hr Ha). Qed.
Print Assumptions C86_on_ellipse_first.
Lemma in_loop_first n a b aa bb u k : let inside (x y : R) := a * (2 * x - 1) * (a * (2 * x - 1)) * aa + b * (2 * y - 1) * (b * (2 * y - 1)) * bb in
  (k < n)%nat → (∀ j, (j < k)%nat → 1 < inside (u (2 * j)%nat) (u (2 * j + 1)%nat)) → inside (u (2 * k)%nat) (u (2 * k + 1)%nat) <= 1 →
  in_ellipse_loop n a b aa bb u = (a * (2 * u (2 * k)%nat - 1), b * (2 * u (2 * k + 1)%nat - 1)).
Proof.
  intros inside. revert u k. induction n as [|n IH]; intros u k Hk Hr Ha; [lia|]. cbn [in_ellipse_loop]. fold (inside (u 0%nat) (u 1%nat)). destruct k as [|k].
  - change (2 * 0 + 1)%nat with 1%nat in *. change (2 * 0)%nat with 0%nat in *. destruct (rleb_spec (inside (u 0%nat) (u 1%nat)) 1); [done|lra].
  - pose proof (Hr 0%nat ltac:(lia)) as R0. change (2 * 0 + 1)%nat with 1%nat in R0. change (2 * 0)%nat with 0%nat in R0. destruct (rleb_spec (inside (u 0%nat) (u 1%nat)) 1); [lra|].
    rewrite (IH _ k); [|lia| |].
    + replace (2 + 2 * k)%nat with (2 * Datatypes.S k)%nat by lia. by replace (2 + (2 * k + 1))%nat with (2 * Datatypes.S k + 1)%nat by lia.
    + intros j Hj. specialize (Hr (Datatypes.S j) ltac:(lia)). replace (2 + 2 * j)%nat with (2 * Datatypes.S j)%nat by lia. by replace (2 + (2 * j + 1))%nat with (2 * Datatypes.S j + 1)%nat by lia.
    + replace (2 + 2 * k)%nat with (2 * Datatypes.S k)%nat by lia. by replace (2 + (2 * k + 1))%nat with (2 * Datatypes.S k + 1)%nat by lia.
Qed.
(** The picker in the ellipse takes the first pair that falls into the disc. *)
Theorem C86_in_ellipse_first a b u k : a ≠ 0 → b ≠ 0 → (k < 1000)%nat → let disc (x y : R) := (2 * x - 1) * (2 * x - 1) + (2 * y - 1) * (2 * y - 1) in
  (∀ j, (j < k)%nat → 1 < disc (u (2 * j)%nat) (u (2 * j + 1)%nat)) → disc (u (2 * k)%nat) (u (2 * k + 1)%nat) <= 1 →
  random_in_ellipse a b u = (a * (2 * u (2 * k)%nat - 1), b * (2 * u (2 * k + 1)%nat - 1)).
Proof.
  intros Ha Hb Hk disc Hr Hk1. unfold random_in_ellipse. destruct (reqb_spec (a * a) 0) as [E|_]; [apply Rmult_integral in E; tauto|]. destruct (reqb_spec (b * b) 0) as [E|_]; [apply Rmult_integral in E; tauto|].
  assert (D : ∀ x y, a * (2 * x - 1) * (a * (2 * x - 1)) * (1 / (a * a)) + b * (2 * y - 1) * (b * (2 * y - 1)) * (1 / (b * b)) = disc x y) by (intros; unfold disc; field; done).
  apply (in_loop_first 1000 a b (1 / (a * a)) (1 / (b * b)) u k); [done| |]; cbv beta; [intros j Hj|]; rewrite D; auto.
Qed.
Print Assumptions C86_in_ellipse_first.
(** The first pair is rejected, the second taken. *)
Example second_taken (u : nat → R) : u 0%nat = 0 → u 1%nat = 0 → u 2%nat = 1 / 2 → u 3%nat = 3 / 4 → random_in_ellipse 2 3 u = (0, 3 / 2).
Proof.
  intros U0 U1 U2 U3. rewrite (C86_in_ellipse_first 2 3 u 1); [| | | lia| |].
  - change (2 * 1 + 1)%nat with 3%nat. change (2 * 1)%nat with 2%nat. rewrite U2, U3. f_equal; field.
  - lra.
  - lra.
  - intros j Hj. assert (j = 0%nat) as -> by lia. change (2 * 0 + 1)%nat with 1%nat. change (2 * 0)%nat with 0%nat. rewrite U0, U1. lra.
  - change (2 * 1 + 1)%nat with 3%nat. change (2 * 1)%nat with 2%nat. rewrite U2, U3. lra.
Qed.
