(** The sum of NonZero (VecGeom/base/Global.h:174-177) in binary64: it is absorbed for arguments of size 2^-46 or more.
    This backs the definition of [nz] in PlanesModel.v. *)
From Coq Require Import Reals ZArith Lra Lia.
From Flocq Require Import Core.
Local Open Scope R_scope.

(** Format of [double]: 53 bits, least exponent -1074. *)
Definition dexp : Z -> Z := FLT_exp (-1074) 53.
Definition is_double (x : R) : Prop := generic_format radix2 dexp x.
Definition rnd (choice : Z -> bool) (x : R) : R := round radix2 dexp (Znearest choice) x.

Local Instance dexp_valid : Valid_exp dexp.
Proof. apply FLT_exp_valid. reflexivity. Qed.
Lemma ulp_large x : bpow radix2 (-46) <= Rabs x -> bpow radix2 (-98) <= ulp radix2 dexp x.
Proof.
  intros H. assert (x <> 0). { intros ->. rewrite Rabs_R0 in H. pose proof (bpow_gt_0 radix2 (-46)). lra. }
  rewrite ulp_neq_0 by assumption. apply bpow_le. unfold cexp, dexp, FLT_exp.
  assert (-45 <= mag radix2 x)%Z by (apply mag_ge_bpow; exact H). lia.
Qed.
Lemma absorbed_pos choice x t : is_double x -> bpow radix2 (-46) <= x -> 0 <= t < bpow radix2 (-99) -> rnd choice (x + t) = x.
Proof.
  intros Hx H Ht. assert (0 < bpow radix2 (-46)) by apply bpow_gt_0.
  assert (Hu : bpow radix2 (-98) <= ulp radix2 dexp x) by (apply ulp_large; rewrite Rabs_pos_eq; lra).
  assert (E : bpow radix2 (-98) = 2 * bpow radix2 (-99)) by (change (-98)%Z with (1 + -99)%Z; rewrite bpow_plus; reflexivity).
  apply Rle_antisym.
  - apply round_N_le_midp; [exact dexp_valid|exact Hx|]. rewrite succ_eq_pos by lra. lra.
  - rewrite <- (round_generic radix2 dexp (Znearest choice) x Hx) at 1. apply round_le; [exact dexp_valid|apply valid_rnd_N|lra].
Qed.
Lemma absorbed_neg choice x t : is_double x -> x <= - bpow radix2 (-46) -> 0 <= t < bpow radix2 (-99) -> rnd choice (x - t) = x.
Proof.
  intros Hx H Ht. assert (Hm : is_double (- x)) by (apply generic_format_opp; exact Hx).
  pose proof (absorbed_pos (fun z => negb (choice (- (z + 1))%Z)) (- x) t Hm ltac:(lra) Ht) as E.
  unfold rnd in *. replace (x - t) with (- (- x + t)) by ring. rewrite round_N_opp, E. ring.
Qed.
(** The double nearest to 1e-30, and the sum with its sign copied from the argument. *)
Definition tiny_double (choice : Z -> bool) : R := rnd choice (/ 10 ^ 30).
Lemma tiny_small choice : 0 <= tiny_double choice < bpow radix2 (-99).
Proof.
  assert (H3 : is_double (3 * bpow radix2 (-101))).
  { change (3 * bpow radix2 (-101)) with (F2R (Float radix2 3 (-101))). apply generic_format_FLT.
    exists (Float radix2 3 (-101)); cbn; [reflexivity|lia|lia]. }
  assert (E : bpow radix2 (-99) = 4 * bpow radix2 (-101)) by (change (-99)%Z with (2 + -101)%Z; rewrite bpow_plus; reflexivity).
  pose proof (bpow_gt_0 radix2 (-101)) as Hb.
  assert (Hle : / 10 ^ 30 <= 3 * bpow radix2 (-101)).
  { change (bpow radix2 (-101)) with (/ IZR (Z.pow_pos 2 101)).
    assert (P : IZR (Z.pow_pos 2 101) = 2 ^ 101) by (rewrite (pow_IZR 2 101); f_equal).
    rewrite P. apply Rmult_le_reg_l with (10 ^ 30); [apply pow_lt; lra|]. rewrite Rinv_r by (apply pow_nonzero; lra).
    apply Rmult_le_reg_r with (2 ^ 101); [apply pow_lt; lra|].
    replace (10 ^ 30 * (3 * / 2 ^ 101) * 2 ^ 101) with (3 * 10 ^ 30) by (field; apply pow_nonzero; lra). lra. }
  unfold tiny_double, rnd. split.
  - rewrite <- (round_0 radix2 dexp (Znearest choice)). apply round_le; [exact dexp_valid|apply valid_rnd_N|].
    left. apply Rinv_0_lt_compat, pow_lt. lra.
  - apply Rle_lt_trans with (3 * bpow radix2 (-101)); [|lra].
    rewrite <- (round_generic radix2 dexp (Znearest choice) _ H3) at 1. apply round_le; [exact dexp_valid|apply valid_rnd_N|exact Hle].
Qed.
Lemma nonzero_absorbed choice choice' x : is_double x -> / 2 ^ 46 <= Rabs x ->
  rnd choice (x + (if Rlt_dec x 0 then - tiny_double choice' else tiny_double choice')) = x.
Proof.
  intros Hx H. pose proof (tiny_small choice') as Ht.
  assert (E : bpow radix2 (-46) = / 2 ^ 46).
  { change (bpow radix2 (-46)) with (/ IZR (Z.pow_pos 2 46)). f_equal. rewrite (pow_IZR 2 46). f_equal. }
  rewrite <- E in H. destruct (Rlt_dec x 0).
  - rewrite Rabs_left in H by auto. apply absorbed_neg; [auto|lra|auto].
  - rewrite Rabs_pos_eq in H by lra. apply absorbed_pos; auto.
Qed.
