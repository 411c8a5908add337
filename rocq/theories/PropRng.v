(** C54, C80: random numbers.  See properties.jsonl. *)
From Coq Require Import Reals Lra Lia.
From stdpp Require Import base option list numbers tactics.
From Verif Require Import Real3 RngModel.
Import stdpp.list.
Local Open Scope R_scope.

(** Numbers as the distribution gives them. *)
Definition in_unit (u : nat → R) : Prop := ∀ n, 0 <= u n < 1.
Lemma poisson_stuck u target : in_unit u → 0 < target → ∀ fuel n p k, 0 <= p < target → poisson_loop fuel u n target p k = None.
Proof.
  intros Hu Ht. induction fuel as [|fuel IH]; intros n p k Hp; [done|]. cbn [poisson_loop].
  destruct (rltb_spec p target); [|lra]. apply IH. specialize (Hu n). nra.
Qed.
(** Poisson returns only zero, and only when the first number is not below exp(-lambda); otherwise its loop never ends. *)
Theorem C54_poisson_refuted u n lambda : in_unit u →
  (∀ fuel k m, poisson fuel u n lambda = Some (k, m) → k = 0%nat) ∧
  (u n < exp (- lambda) ↔ ∀ fuel, poisson fuel u n lambda = None).
Proof.
  intros Hu. pose proof (exp_pos (- lambda)) as He. unfold poisson. specialize (Hu n) as Hn.
  assert (S : u n < exp (- lambda) → ∀ fuel, poisson_loop fuel u (Datatypes.S n) (exp (- lambda)) (u n) 0 = None) by (intros; apply poisson_stuck; [done|done|lra]).
  split; [|split; [done|]].
  - intros fuel k m E. destruct (Rlt_dec (u n) (exp (- lambda))) as [Hl|Hl]; [by rewrite S in E|].
    destruct fuel; [done|]. cbn in E. destruct (rltb_spec (u n) (exp (- lambda))); [lra|]. congruence.
  - intros E. specialize (E 1%nat). cbn in E. destruct (rltb_spec (u n) (exp (- lambda))); [done|]. discriminate.
Qed.
(** What remains: a first number of exp(-lambda) or more ends at once with zero after one call.  Missing: termination with
    probability one, and every other answer. *)
Theorem C54_poisson_partial u n lambda fuel : exp (- lambda) <= u n → (0 < fuel)%nat → poisson fuel u n lambda = Some (0%nat, Datatypes.S n).
Proof.
  intros H Hf. unfold poisson. destruct fuel; [lia|]. cbn. destruct (rltb_spec (u n) (exp (- lambda))); [lra|done].
Qed.
Print Assumptions C54_poisson_refuted.
Print Assumptions C54_poisson_partial.
Example poisson_half : in_unit (λ _, 1/2) ∧ (∀ fuel, poisson fuel (λ _, 1/2) 0 (-1) = None).
Proof.
  assert (H : in_unit (λ _, 1/2)) by (intros n; lra). split; [done|].
  apply (C54_poisson_refuted (λ _, 1/2) 0 (-1) H). pose proof (exp_ineq1 1 ltac:(lra)). replace (- -1) with 1 by ring. lra.
Qed.
(** For every mean above one, half of the numbers hang: a mean of one hangs for a third and more. *)
Example poisson_one : ∀ fuel, poisson fuel (λ _, 1/4) 0 1 = None.
Proof.
  apply (C54_poisson_refuted (λ _, 1/4) 0 1); [intros n; lra|]. rewrite exp_Ropp. pose proof exp_le_3. pose proof (exp_pos 1).
  apply Rlt_le_trans with (/ 3); [lra|]. apply Rinv_le_contravar; lra.
Qed.

(** uniform: within the range, the upper end excluded; one call. *)
Theorem C80_uniform u n lo hi : in_unit u → lo <= hi →
  lo <= fst (uniform u n lo hi) <= hi ∧ (lo < hi → fst (uniform u n lo hi) < hi) ∧ snd (uniform u n lo hi) = Datatypes.S n.
Proof. intros Hu Hl. specialize (Hu n). unfold uniform. cbn. split; [split; nra|split; [intros; nra|done]]. Qed.
(** Every value of the range is reached. *)
Theorem C80_uniform_onto lo hi z : lo <= z < hi → ∃ a, 0 <= a < 1 ∧ ∀ u n, u n = a → fst (uniform u n lo hi) = z.
Proof.
  intros Hz. exists ((z - lo) / (hi - lo)). assert (H : 0 < hi - lo) by lra. split.
  - split; [apply Rmult_le_pos; [lra|]; left; by apply Rinv_0_lt_compat|]. apply (Rmult_lt_reg_r (hi - lo)); [done|].
    unfold Rdiv. rewrite Rmult_assoc, Rinv_l by lra. lra.
  - intros u n E. unfold uniform. cbn [fst]. rewrite E. field. lra.
Qed.
(** uniform_array: as many values, each as one call of uniform. *)
Theorem C80_array u n size lo hi :
  length (fst (uniform_array u n size lo hi)) = size ∧ snd (uniform_array u n size lo hi) = (n + size)%nat ∧
  ∀ i, (i < size)%nat → fst (uniform_array u n size lo hi) !! i = Some (fst (uniform u (n + i) lo hi)).
Proof.
  revert n. induction size as [|size IH]; intros n; cbn; [split; [done|split; [lia|intros; lia]]|].
  specialize (IH (Datatypes.S n)). destruct (uniform_array u (Datatypes.S n) size lo hi) as [rest m]. cbn in *.
  destruct IH as (A & B & C). split; [lia|]. split; [lia|]. intros [|i] Hi; cbn; [by rewrite Nat.add_0_r|].
  rewrite C by lia. by rewrite <- Nat.add_succ_comm.
Qed.
(** The square of the distance of the i-th pair from the centre. *)
Definition pair_w (u : nat → R) (n : nat) : R := let x1 := 2 * u n - 1 in let x2 := 2 * u (n + 1)%nat - 1 in x1 * x1 + x2 * x2.
(** Gauss takes the first pair in the open disc; without one it does not end. *)
Theorem C80_gauss u ave sig fuel n :
  match gauss fuel u n ave sig with
  | Some (r, m) => ∃ i, (i < fuel)%nat ∧ (∀ j, (j < i)%nat → 1 <= pair_w u (n + 2 * j)) ∧ pair_w u (n + 2 * i) < 1 ∧ m = (n + 2 * i + 2)%nat ∧
      (pair_w u (n + 2 * i) = 0 ∧ r = None ∨
       pair_w u (n + 2 * i) ≠ 0 ∧ ∃ g, r = Some (ave + g * sig) ∧ Rabs g <= R_sqrt.sqrt (- 2 * ln (pair_w u (n + 2 * i))))
  | None => ∀ j, (j < fuel)%nat → 1 <= pair_w u (n + 2 * j)
  end.
Proof.
  revert n. induction fuel as [|fuel IH]; intros n; cbn [gauss]; [intros; lia|]. cbv zeta.
  assert (E : (2 * u n - 1) * (2 * u n - 1) + (2 * u (Datatypes.S n) - 1) * (2 * u (Datatypes.S n) - 1) = pair_w u n) by (unfold pair_w; by rewrite Nat.add_1_r).
  rewrite E. destruct (rgeb_spec (pair_w u n) 1) as [Hw|Hw].
  - specialize (IH (n + 2)%nat). destruct (gauss fuel u (n + 2) ave sig) as [[r m]|].
    + destruct IH as (i & Hi & Hb & Hl & Hm & Hr). exists (Datatypes.S i). replace (n + 2 * Datatypes.S i)%nat with (n + 2 + 2 * i)%nat by lia.
      split; [lia|]. split; [|done]. intros [|j] Hj; [by rewrite Nat.mul_0_r, Nat.add_0_r; lra|].
      replace (n + 2 * Datatypes.S j)%nat with (n + 2 + 2 * j)%nat by lia. apply Hb. lia.
    + intros [|j] Hj; [by rewrite Nat.mul_0_r, Nat.add_0_r; lra|]. replace (n + 2 * Datatypes.S j)%nat with (n + 2 + 2 * j)%nat by lia. apply IH. lia.
  - exists 0%nat. rewrite Nat.mul_0_r, Nat.add_0_r. split; [lia|]. split; [intros; lia|]. split; [lra|]. split; [done|].
    destruct (reqb_spec (pair_w u n) 0) as [Hz|Hz]; [by left|right]. split; [done|].
    exists ((2 * u n - 1) * R_sqrt.sqrt (- (2) * ln (pair_w u n) / pair_w u n)). split; [f_equal; ring|].
    assert (Hp : 0 < pair_w u n).
    { assert (H0 : 0 <= pair_w u n) by (apply Rplus_le_le_0_compat; apply Rle_0_sqr). destruct H0 as [|H0]; [done|]. by rewrite <- H0 in Hz. }
    set (x := 2 * u n - 1) in *. assert (Hx : x * x <= pair_w u n) by (unfold pair_w; cbv zeta; fold x; pose proof (Rle_0_sqr (2 * u (n + 1)%nat - 1)) as Hq; unfold Rsqr in Hq; lra).
    assert (Hln : ln (pair_w u n) <= 0). { rewrite <- ln_1. destruct (Req_dec (pair_w u n) 1) as [->|]; [lra|]. left. apply ln_increasing; lra. }
    set (w := pair_w u n) in *. clearbody w x.
    assert (Hq : 0 <= - (2) * ln w / w) by (apply Rmult_le_pos; [lra|]; left; by apply Rinv_0_lt_compat).
    rewrite Rabs_mult, (Rabs_pos_eq (R_sqrt.sqrt _)) by apply sqrt_pos.
    apply sqr_le_le; [apply sqrt_pos|].
    replace (Rabs x * R_sqrt.sqrt (- (2) * ln w / w) * (Rabs x * R_sqrt.sqrt (- (2) * ln w / w)))
      with ((Rabs x * Rabs x) * (R_sqrt.sqrt (- (2) * ln w / w) * R_sqrt.sqrt (- (2) * ln w / w))) by ring.
    rewrite !sqrt_sqrt by lra. rewrite <- Rabs_mult, Rabs_pos_eq by nra.
    replace (-2 * ln w) with (w * (- (2) * ln w / w)) by (field; lra). by apply Rmult_le_compat_r.
Qed.
(** Every number is a possible answer: some pair in the disc gives it at once. *)
Theorem C80_gauss_onto ave sig z : sig ≠ 0 → ∃ a b, 0 < a < 1 ∧ 0 < b < 1 ∧
  ∀ u n, u n = a → u (Datatypes.S n) = b → gauss 1 u n ave sig = Some (Some z, (n + 2)%nat).
Proof.
  intros Hs. destruct (Req_dec z ave) as [->|Hz].
  - exists (1/2), (3/4). split; [lra|]. split; [lra|]. intros u n Ea Eb. cbn. rewrite Ea, Eb.
    replace (2 * (1/2) - 1) with 0 by field. replace (2 * (3/4) - 1) with (1/2) by field.
    destruct (rgeb_spec (0 * 0 + 1/2 * (1/2)) 1); [lra|]. destruct (reqb_spec (0 * 0 + 1/2 * (1/2)) 0); [lra|]. do 3 f_equal. ring.
  - set (s := (z - ave) / sig). assert (Es : s * sig = z - ave) by (unfold s; field; done).
    assert (Hs0 : s ≠ 0) by (intros E; rewrite E in Es; lra). clearbody s.
    set (x := exp (- (s * s) / 4)). assert (Hx : 0 < x) by apply exp_pos.
    assert (Hx1 : x < 1). { unfold x. rewrite <- exp_0. apply exp_increasing. nra. }
    assert (Hln : ln x = - (s * s) / 4) by (unfold x; apply ln_exp). clearbody x.
    set (g := if Rlt_dec s 0 then - x else x).
    assert (Hg : -1 < g < 1 ∧ g * g = x * x) by (unfold g; destruct (Rlt_dec s 0); split; nra). destruct Hg as [Hg Egg].
    exists ((1 + g) / 2), (1/2). split; [lra|]. split; [lra|]. intros u n Ea Eb. cbn. rewrite Ea, Eb.
    replace (2 * ((1 + g) / 2) - 1) with g by field. replace (2 * (1/2) - 1) with 0 by field.
    replace (g * g + 0 * 0) with (x * x) by lra.
    destruct (rgeb_spec (x * x) 1); [nra|]. destruct (reqb_spec (x * x) 0); [nra|].
    do 3 f_equal. rewrite ln_mult, Hln by done.
    replace (- (2) * (- (s * s) / 4 + - (s * s) / 4) / (x * x)) with ((s / x) * (s / x)) by (field; lra).
    assert (Er : R_sqrt.sqrt ((s / x) * (s / x)) = Rabs (s / x)) by apply sqrt_Rsqr_abs. rewrite Er.
    assert (Ga : g * Rabs (s / x) = s).
    { unfold Rdiv. rewrite Rabs_mult, (Rabs_pos_eq (/ x)) by (left; by apply Rinv_0_lt_compat). unfold g.
      destruct (Rlt_dec s 0); [rewrite Rabs_left by done|rewrite Rabs_pos_eq by lra]; field; lra. }
    rewrite Ga. lra.
Qed.
(** Mirrored numbers give the mirrored answer. *)
Theorem C80_gauss_mirror u u' ave sig fuel n : (∀ m, u' m = 1 - u m) →
  gauss fuel u' n ave sig = match gauss fuel u n ave sig with
    | Some (Some z, m) => Some (Some (2 * ave - z), m) | Some (None, m) => Some (None, m) | None => None end.
Proof.
  intros Hu. revert n. induction fuel as [|fuel IH]; intros n; [done|]. cbn. rewrite !Hu.
  replace ((2 * (1 - u n) - 1) * (2 * (1 - u n) - 1) + (2 * (1 - u (Datatypes.S n)) - 1) * (2 * (1 - u (Datatypes.S n)) - 1))
    with ((2 * u n - 1) * (2 * u n - 1) + (2 * u (Datatypes.S n) - 1) * (2 * u (Datatypes.S n) - 1)) by ring.
  set (w := (2 * u n - 1) * (2 * u n - 1) + (2 * u (Datatypes.S n) - 1) * (2 * u (Datatypes.S n) - 1)).
  destruct (rgeb w 1); [apply IH|]. destruct (reqb w 0); [done|]. do 3 f_equal. ring.
Qed.
(** The centre itself is accepted and gives no number. *)
Theorem C80_gauss_centre_refuted u n ave sig fuel : u n = 1/2 → u (Datatypes.S n) = 1/2 → (0 < fuel)%nat →
  gauss fuel u n ave sig = Some (None, (n + 2)%nat).
Proof.
  intros Ea Eb Hf. destruct fuel; [lia|]. cbn. rewrite Ea, Eb. replace (2 * (1/2) - 1) with 0 by field. replace (0 * 0 + 0 * 0) with 0 by ring.
  destruct (rgeb_spec 0 1); [lra|]. destruct (reqb_spec 0 0); [done|lra].
Qed.
Print Assumptions C80_uniform.
Print Assumptions C80_uniform_onto.
Print Assumptions C80_array.
Print Assumptions C80_gauss.
Print Assumptions C80_gauss_onto.
Print Assumptions C80_gauss_mirror.
Print Assumptions C80_gauss_centre_refuted.
Example uniform_range : fst (uniform (λ _, 1/2) 0 2 6) = 4.
Proof. unfold uniform. cbn. lra. Qed.
Example gauss_waits ave sig : gauss 1 (λ _, 0) 0 ave sig = None.
Proof. cbn. destruct (rgeb_spec ((2 * 0 - 1) * (2 * 0 - 1) + (2 * 0 - 1) * (2 * 0 - 1)) 1); [done|lra]. Qed.
