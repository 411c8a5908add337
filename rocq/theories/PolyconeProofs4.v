(** Ray distances of a polycone from those of its sections. *)
From Coq Require Import Reals Lra Lia Bool.
From stdpp Require Import base list option numbers tactics.
From Verif Require Import Real3 BoxModel ConeModel ConeSpec ConeProofs PolyconeModel PolyconeSpec PolyconeProofs.
Import stdpp.list.
Local Open Scope R_scope.

Lemma vz_along p d u : vz (along p d u) = vz p + u * vz d.
Proof. unfold along, vadd, vscale. cbn. ring. Qed.

Section rays.
Variables (inf : R) (cone_to_in cone_to_out : cone_type → cone → v3 → v3 → R → R).
Variables (t : cone_type) (pc : polycone) (S : nat → v3 → Prop) (p d : v3) (smax : R).
Let n := length (pc_sections pc).
Hypothesis Hspan : spans pc.
Hypothesis Hinc : increasing (pc_zs pc).
Hypothesis Hconf : confined (pc_zs pc) S.

Lemma S_index k q : S k q → (k < n)%nat.
Proof.
  intros H. destruct (Hconf k q H) as (a & b & _ & Hb & _). apply lookup_lt_Some in Hb. rewrite (proj1 Hspan) in Hb. unfold n. lia.
Qed.
Lemma S_above k q j a : S k q → pc_zs pc !! j = Some a → a <= vz q → (j <= k)%nat.
Proof.
  intros H Ha Hq. destruct (Hconf k q H) as (x & y & Hx & Hy & Hz). destruct (decide (j <= k)%nat); [done|exfalso].
  pose proof (increasing_le _ (k + 1) j _ _ Hinc ltac:(lia) Hy Ha). lra.
Qed.
Lemma S_below k q j b : S k q → pc_zs pc !! j = Some b → vz q <= b → (k < j)%nat.
Proof.
  intros H Hb Hq. destruct (Hconf k q H) as (x & y & Hx & Hy & Hz). destruct (decide (k < j)%nat); [done|exfalso].
  pose proof (increasing_le _ j k _ _ Hinc ltac:(lia) Hb Hx). lra.
Qed.

(** * DistanceToIn *)
Hypothesis Hin : ∀ k s, pc_sections pc !! k = Some s →
  let D := cone_to_in t (sec_solid s) (shifted s p) d smax in
  (D < inf ∧ enters (S k) p d D) ∨ (D = inf ∧ avoids (S k) p d).
Definition in_answer (D : R) : Prop := (D < inf ∧ enters (any_of S) p d D) ∨ (D = inf ∧ avoids (any_of S) p d).

Lemma loop_up fuel i : 0 < vz d → (i < n)%nat → (n - i <= fuel)%nat → (∀ k, (k < i)%nat → avoids (S k) p d) →
  ∃ D, to_in_loop inf cone_to_in t pc p d smax 1 fuel (Z.of_nat i) = Some D ∧ in_answer D.
Proof.
  intros Hd. revert i. induction fuel as [|f IH]; intros i Hi Hfu Hpast; [lia|].
  destruct (section_at pc i Hi) as (s & Hs & Hg). cbn [to_in_loop]. rewrite Hg. cbn [mbind option_bind]. rewrite orb_false_r.
  set (D := cone_to_in t (sec_solid s) (shifted s p) d smax).
  destruct (Hin i s Hs) as [[Hlt (HD & Hb & e & He & Ha)]|[Hinf Hav]]; fold D in Hlt || fold D in Hinf.
  - fold D in HD, Hb, Ha. destruct (rltb_spec D inf); [|lra]. exists D. split; [done|]. left. split; [done|]. split; [done|]. split.
    + intros u Hu [k Hk]. destruct (decide (k < i)%nat) as [Hki|Hki]; [by apply (Hpast k Hki u); [lra|]|].
      destruct (decide (k = i)) as [->|Hne]; [by apply (Hb u)|].
      pose proof (Ha (D + e / 2) ltac:(lra)) as Hx. destruct (Hconf _ _ Hx) as (x & y & _ & Hy & Hz).
      rewrite vz_along in Hz. pose proof (S_below k _ (i + 1) y Hk Hy) as Hbel. rewrite vz_along in Hbel. 
      assert (k < i + 1)%nat; [|lia]. apply Hbel. nra.
    + exists e. split; [done|]. intros u Hu. exists i. by apply Ha.
  - destruct (rltb_spec D inf); [lra|]. unfold nsections. fold n.
    destruct (decide (i + 1 < n)%nat) as [Hn|Hn].
    + destruct (Z.leb_spec 0 (Z.of_nat i + 1)); [|lia]. destruct (Z.ltb_spec (Z.of_nat i + 1) (Z.of_nat n)); [|lia]. cbn [andb].
      replace (Z.of_nat i + 1)%Z with (Z.of_nat (i + 1)) by lia. apply IH; [done|lia|].
      intros k Hk. destruct (decide (k = i)) as [->|]; [done|apply Hpast; lia].
    + destruct (Z.ltb_spec (Z.of_nat i + 1) (Z.of_nat n)); [lia|]. rewrite andb_false_r. exists D. split; [done|]. right. split; [done|].
      intros u Hu [k Hk]. pose proof (S_index k _ Hk). destruct (decide (k = i)) as [->|]; [by apply (Hav u Hu)|].
      apply (Hpast k ltac:(lia) u Hu Hk).
Qed.
Lemma loop_down fuel i : vz d < 0 → (i < n)%nat → (i < fuel)%nat → (∀ k, (i < k)%nat → avoids (S k) p d) →
  ∃ D, to_in_loop inf cone_to_in t pc p d smax (-1) fuel (Z.of_nat i) = Some D ∧ in_answer D.
Proof.
  intros Hd. revert i. induction fuel as [|f IH]; intros i Hi Hfu Hpast; [lia|].
  destruct (section_at pc i Hi) as (s & Hs & Hg). cbn [to_in_loop]. rewrite Hg. cbn [mbind option_bind]. rewrite orb_false_r.
  set (D := cone_to_in t (sec_solid s) (shifted s p) d smax).
  destruct (Hin i s Hs) as [[Hlt (HD & Hb & e & He & Ha)]|[Hinf Hav]]; fold D in Hlt || fold D in Hinf.
  - fold D in HD, Hb, Ha. destruct (rltb_spec D inf); [|lra]. exists D. split; [done|]. left. split; [done|]. split; [done|]. split.
    + intros u Hu [k Hk]. destruct (decide (i < k)%nat) as [Hki|Hki]; [by apply (Hpast k Hki u); [lra|]|].
      destruct (decide (k = i)) as [->|Hne]; [by apply (Hb u)|].
      pose proof (Ha (D + e / 2) ltac:(lra)) as Hx. destruct (Hconf _ _ Hx) as (x & y & Hx' & _ & Hz).
      rewrite vz_along in Hz. pose proof (S_above k _ i x Hk Hx') as Hbel. rewrite vz_along in Hbel.
      assert (i <= k)%nat; [|lia]. apply Hbel. nra.
    + exists e. split; [done|]. intros u Hu. exists i. by apply Ha.
  - destruct (rltb_spec D inf); [lra|]. unfold nsections. fold n.
    destruct (Z.ltb_spec (Z.of_nat i + -1) (Z.of_nat n)); [|lia].
    destruct (decide (0 < i)%nat) as [Hn|Hn].
    + destruct (Z.leb_spec 0 (Z.of_nat i + -1)); [|lia]. cbn [andb].
      replace (Z.of_nat i + -1)%Z with (Z.of_nat (i - 1)) by lia. apply IH; [lia|lia|].
      intros k Hk. destruct (decide (k = i)) as [->|]; [done|apply Hpast; lia].
    + destruct (Z.leb_spec 0 (Z.of_nat i + -1)); [lia|]. cbn [andb]. exists D. split; [done|]. right. split; [done|].
      intros u Hu [k Hk]. destruct (decide (k = i)) as [->|]; [by apply (Hav u Hu)|].
      apply (Hpast k ltac:(lia) u Hu Hk).
Qed.

(** The section the walk starts in, and what is known about the others. *)
Lemma start_index : (0 < n)%nat → ∃ i j, section_index pc (vz p) = Some j ∧
  (if (j =? -1)%Z then 0%Z else if (j =? -2)%Z then (nsections pc - 1)%Z else j) = Z.of_nat i ∧ (i < n)%nat ∧
  (0 < vz d → ∀ k, (k < i)%nat → avoids (S k) p d) ∧ (vz d < 0 → ∀ k, (i < k)%nat → avoids (S k) p d) ∧
  (vz d = 0 → ∀ k, k ≠ i → avoids (S k) p d).
Proof.
  intros Hn. destruct (section_index_located pc (vz p) (proj1 Hspan) Hinc) as (j & Ej & Hl).
  assert (Hne : pc_sections pc ≠ []) by (intros E; unfold n in Hn; rewrite E in Hn; cbn in Hn; lia).
  destruct Hl as [a Ha Hlt|a b Ha Hge Hb Hn'|k a b Hk Ha Hb Hz Hf].
  - exists 0%nat, (-1)%Z. split; [done|]. split; [done|]. split; [done|]. split_and!.
    + intros _ k Hk. lia.
    + intros Hd k _ u Hu Hk. destruct (Hconf _ _ Hk) as (x & y & Hx & _ & Hz). rewrite vz_along in Hz.
      pose proof (increasing_le _ 0 k _ _ Hinc ltac:(lia) Ha Hx). nra.
    + intros Hd k _ u Hu Hk. destruct (Hconf _ _ Hk) as (x & y & Hx & _ & Hz). rewrite vz_along in Hz.
      pose proof (increasing_le _ 0 k _ _ Hinc ltac:(lia) Ha Hx). rewrite Hd in Hz. lra.
  - exists (n - 1)%nat, (-2)%Z. split; [done|]. split; [cbn; unfold nsections; fold n; lia|]. split; [lia|].
    specialize (Hn' Hne). split_and!.
    + intros Hd k _ u Hu Hk. destruct (Hconf _ _ Hk) as (x & y & _ & Hy & Hz). rewrite vz_along in Hz.
      pose proof (S_index k _ Hk). pose proof (increasing_le _ (k + 1) n _ _ Hinc ltac:(lia) Hy Hb). nra.
    + intros Hd k Hk u Hu Hk'. pose proof (S_index k _ Hk'). lia.
    + intros Hd k _ u Hu Hk. destruct (Hconf _ _ Hk) as (x & y & _ & Hy & Hz). rewrite vz_along, Hd in Hz.
      pose proof (S_index k _ Hk). pose proof (increasing_le _ (k + 1) n _ _ Hinc ltac:(lia) Hy Hb). lra.
  - exists k, (Z.of_nat k). split; [done|]. split.
    { destruct (Z.eqb_spec (Z.of_nat k) (-1)); [lia|]. destruct (Z.eqb_spec (Z.of_nat k) (-2)); [lia|]. done. }
    split; [done|]. split_and!.
    + intros Hd k' Hk' u Hu HS. pose proof (S_above k' _ k a HS Ha) as H. rewrite vz_along in H.
      assert (k <= k')%nat; [apply H; nra|lia].
    + intros Hd k' Hk' u Hu HS. pose proof (S_below k' _ (Datatypes.S k) b HS Hb) as H. rewrite vz_along in H.
      assert (k' < Datatypes.S k)%nat; [apply H; nra|lia].
    + intros Hd k' Hk' u Hu HS. pose proof (S_below k' _ (Datatypes.S k) b HS Hb) as H. pose proof (S_above k' _ k a HS Ha) as H'.
      rewrite vz_along, Hd in H, H'. assert (k <= k')%nat by (apply H'; lra). assert (k' < Datatypes.S k)%nat by (apply H; lra). lia.
Qed.
Theorem poly_to_in_nearest : (0 < n)%nat → kTolerance <= Rabs (vz d) ∨ vz d = 0 →
  ∃ D, poly_to_in inf cone_to_in t pc p d smax = Some D ∧ in_answer D.
Proof.
  intros Hn Hz. pose proof kTolerance_pos as Ht. unfold poly_to_in.
  destruct (start_index Hn) as (i & j & -> & Ei & Hi & Hup & Hdn & Hfl). cbn [mbind option_bind]. rewrite Ei. fold n.
  unfold increment. destruct (rltb_spec (Rabs (vz d)) kTolerance) as [Hs|Hs].
  - assert (Hd : vz d = 0) by (destruct Hz; [lra|done]).
    destruct (section_at pc i Hi) as (s & Hsi & Hg). destruct n as [|m] eqn:En; [lia|]. cbn [to_in_loop]. rewrite Hg. cbn [mbind option_bind].
    rewrite orb_true_r. eexists; split; [reflexivity|].
    destruct (Hin i s Hsi) as [[Hlt (HD & Hb & e & He & Ha)]|[Hinf Hav]].
    + left. split; [done|]. split; [done|]. split.
      * intros u Hu [k Hk]. destruct (decide (k = i)) as [->|Hne]; [by apply (Hb u)|]. apply (Hfl Hd k Hne u); [lra|done].
      * exists e. split; [done|]. intros u Hu. exists i. by apply Ha.
    + right. split; [done|]. intros u Hu [k Hk]. destruct (decide (k = i)) as [->|Hne]; [by apply (Hav u)|]. by apply (Hfl Hd k Hne u).
  - destruct (rgtb_spec (vz d) 0).
    + apply loop_up; [lra|done|lia|]. intros k Hk. apply Hup; [lra|done].
    + assert (vz d < 0) by (unfold Rabs in Hs; destruct (Rcase_abs (vz d)); lra). apply loop_down; [done|done|lia|]. intros k Hk. by apply Hdn.
Qed.
End rays.

(** * DistanceToOut *)
Section out.
Variables (inf : R) (cone_to_out : cone_type → cone → v3 → v3 → R → R).
Variables (t : cone_type) (pc : polycone) (S : nat → v3 → Prop) (p d : v3) (smax : R).
Let n := length (pc_sections pc).
Hypothesis Hspan : spans pc.
Hypothesis Hap : apart kConeTolerance (pc_zs pc).
Hypothesis Hconf : confined (pc_zs pc) S.
Hypothesis Hstay : ∀ k s T, pc_sections pc !! k = Some s → 0 <= T → section_outside t s (along p d T) = false →
  stays (S k) p d T (cone_to_out t (sec_solid s) (shifted s (along p d T)) d smax).
Hypothesis Hgone : ∀ k s T, pc_sections pc !! k = Some s → 0 <= T → section_outside t s (along p d T) = true → gone (S k) p d T.
Variable inc : Z.
Hypothesis Hdir : (inc = 1%Z ∧ 0 < vz d) ∨ (inc = (-1)%Z ∧ vz d < 0) ∨ (inc = 0%Z ∧ vz d = 0).
Variable i0 : nat.
Variables a0 b0 : R.
Hypothesis Ha0 : pc_zs pc !! i0 = Some a0.
Hypothesis Hb0 : pc_zs pc !! (i0 + 1)%nat = Some b0.
Hypothesis Hz0 : a0 < vz p < b0.

Let Hinc : increasing (pc_zs pc).
Proof. apply apart_increasing with kConeTolerance; [pose proof kConeTolerance_pos; lra|exact Hap]. Qed.

Lemma small_step x y : x < y → ∃ e, 0 < e ∧ ∀ u, 0 < u < e → x + u * vz d < y.
Proof.
  intros Hxy. destruct (Rle_dec (vz d) 0) as [Hn|Hp].
  - exists 1. split; [lra|]. intros u Hu. nra.
  - exists ((y - x) / vz d). assert (0 < vz d) by lra. split; [apply Rdiv_lt_0_compat; lra|]. intros u [_ Hu].
    apply Rmult_lt_compat_r with (r := vz d) in Hu; [|done]. replace ((y - x) / vz d * vz d) with (y - x) in Hu by (field; lra). lra.
Qed.
Lemma small_step' x y : y < x → ∃ e, 0 < e ∧ ∀ u, 0 < u < e → y < x + u * vz d.
Proof.
  intros Hxy. destruct (Rle_dec 0 (vz d)) as [Hn|Hp].
  - exists 1. split; [lra|]. intros u Hu. nra.
  - exists ((x - y) / - vz d). assert (0 < - vz d) by lra. split; [apply Rdiv_lt_0_compat; lra|]. intros u [_ Hu].
    apply Rmult_lt_compat_r with (r := - vz d) in Hu; [|done]. replace ((x - y) / - vz d * - vz d) with (x - y) in Hu by (field; lra). lra.
Qed.
(** Right after [T] only the sections of [P] can be there. *)
Definition only (P : nat → Prop) (T : R) : Prop := ∃ e, 0 < e ∧ ∀ u k, T < u < T + e → S k (along p d u) → P k.
Lemma only_start : only (λ k, k = i0) 0.
Proof.
  destruct (small_step (vz p) b0) as (e1 & He1 & H1); [lra|]. destruct (small_step' (vz p) a0) as (e2 & He2 & H2); [lra|].
  exists (Rmin e1 e2). split; [by apply Rmin_glb_lt|]. intros u k Hu Hk. pose proof (Rmin_l e1 e2). pose proof (Rmin_r e1 e2).
  pose proof (S_above pc S Hinc Hconf k _ i0 a0 Hk Ha0) as X. pose proof (S_below pc S Hinc Hconf k _ (i0 + 1) b0 Hk Hb0) as Y.
  rewrite vz_along in X, Y. specialize (H1 u ltac:(lra)). specialize (H2 u ltac:(lra)).
  assert (i0 <= k)%nat by (apply X; lra). assert (k < i0 + 1)%nat by (apply Y; lra). lia.
Qed.
Lemma only_after i a b T : (i < n)%nat → pc_zs pc !! i = Some a → pc_zs pc !! (i + 1)%nat = Some b →
  a <= vz (along p d T) <= b → (inc = 0%Z → a < vz (along p d T) < b) →
  only (λ k, Z.of_nat k = Z.of_nat i ∨ Z.of_nat k = (Z.of_nat i + inc)%Z) T.
Proof.
  intros Hi Ha Hb Hz Hfl. rewrite vz_along in Hz, Hfl. pose proof kConeTolerance_pos as Hct.
  destruct Hdir as [[-> Hd]|[[-> Hd]|[-> Hd]]].
  - destruct (pc_zs pc !! (i + 2)%nat) as [c|] eqn:Ec.
    + pose proof (Hap (i + 1)%nat b c Hb ltac:(by replace (Datatypes.S (i + 1)) with (i + 2)%nat by lia)).
      destruct (small_step (vz p + T * vz d) c) as (e & He & H1); [lra|]. exists e. split; [done|]. intros u k Hu Hk.
      pose proof (S_above pc S Hinc Hconf k _ i a Hk Ha) as X. pose proof (S_below pc S Hinc Hconf k _ (i + 2) c Hk Ec) as Y.
      rewrite vz_along in X, Y. specialize (H1 (u - T) ltac:(lra)).
      assert (i <= k)%nat by (apply X; nra). assert (k < i + 2)%nat by (apply Y; nra). lia.
    + exists 1. split; [lra|]. intros u k Hu Hk. pose proof (S_above pc S Hinc Hconf k _ i a Hk Ha) as X. rewrite vz_along in X.
      assert (i <= k)%nat by (apply X; nra). pose proof (S_index pc S Hspan Hconf k _ Hk).
      apply lookup_ge_None in Ec. rewrite (proj1 Hspan) in Ec. lia.
  - destruct (decide (i = 0)%nat) as [->|Hne].
    + exists 1. split; [lra|]. intros u k Hu Hk. pose proof (S_below pc S Hinc Hconf k _ (0 + 1) b Hk Hb) as X. rewrite vz_along in X.
      assert (k < 0 + 1)%nat by (apply X; nra). lia.
    + destruct (zs_at pc Hspan (i - 1)) as [c Hc]; [unfold n in *; lia|].
      pose proof (Hap (i - 1)%nat c a Hc ltac:(by replace (Datatypes.S (i - 1)) with i by lia)).
      destruct (small_step' (vz p + T * vz d) c) as (e & He & H1); [lra|]. exists e. split; [done|]. intros u k Hu Hk.
      pose proof (S_above pc S Hinc Hconf k _ (i - 1) c Hk Hc) as X. pose proof (S_below pc S Hinc Hconf k _ (i + 1) b Hk Hb) as Y.
      rewrite vz_along in X, Y. specialize (H1 (u - T) ltac:(lra)).
      assert (i - 1 <= k)%nat by (apply X; nra). assert (k < i + 1)%nat by (apply Y; nra). lia.
  - specialize (Hfl eq_refl). exists 1. split; [lra|]. intros u k Hu Hk.
    pose proof (S_above pc S Hinc Hconf k _ i a Hk Ha) as X. pose proof (S_below pc S Hinc Hconf k _ (i + 1) b Hk Hb) as Y.
    rewrite vz_along, Hd in X, Y. rewrite Hd in Hfl. assert (i <= k)%nat by (apply X; lra). assert (k < i + 1)%nat by (apply Y; lra). lia.
Qed.
(** What the answer means: the ray leaves the polycone at [E], and the answer falls short of [E] by less than half a
    tolerance. *)
Definition inside_until (T : R) : Prop := ∀ u, 0 < u < T → any_of S (along p d u) ∨ vz (along p d u) ∈ pc_zs pc.
Definition out_answer (r : R) : Prop :=
  ∃ E, r <= E < r + 5 / 10 * kTolerance ∧ inside_until E ∧ gone (any_of S) p d E.

Lemma gone_all T (P : nat → Prop) : only P T → (∃ e, 0 < e ∧ ∀ u k, T < u < T + e → P k → ¬ S k (along p d u)) → gone (any_of S) p d T.
Proof.
  intros (e1 & He1 & H1) (e2 & He2 & H2). exists (Rmin e1 e2). split; [by apply Rmin_glb_lt|]. pose proof (Rmin_l e1 e2). pose proof (Rmin_r e1 e2).
  intros u Hu [k Hk]. assert (P k) by (apply (H1 u); [lra|done]). apply (H2 u k); [lra|done|done].
Qed.
Lemma next_index_in i : (2 <= n)%nat → (i < n)%nat → (0 <= Z.of_nat i + inc < Z.of_nat n)%Z → next_index pc inc (Z.of_nat i) = (Z.of_nat i + inc)%Z.
Proof.
  intros Hn Hi Hin. unfold next_index, nsections. fold n.
  destruct ((0 <? Z.of_nat i)%Z && (Z.of_nat i <? Z.of_nat n - 1)%Z) eqn:E; [done|].
  destruct (Z.eqb_spec (Z.of_nat i) 0), (Z.ltb_spec 0 inc), (Z.eqb_spec (Z.of_nat i) (Z.of_nat n - 1)), (Z.ltb_spec inc 0); cbn [andb]; try lia.
  all: exfalso; apply andb_false_iff in E; destruct E as [E|E]; apply Z.ltb_ge in E; lia.
Qed.
Lemma next_index_end i : (2 <= n)%nat → (i < n)%nat → ¬ (0 <= Z.of_nat i + inc < Z.of_nat n)%Z → next_index pc inc (Z.of_nat i) = Z.of_nat i.
Proof.
  intros Hn Hi Hin. unfold next_index, nsections. fold n.
  destruct ((0 <? Z.of_nat i)%Z && (Z.of_nat i <? Z.of_nat n - 1)%Z) eqn:E.
  { apply andb_true_iff in E as [E1 E2]. apply Z.ltb_lt in E1, E2. destruct Hdir as [[? _]|[[? _]|[? _]]]; lia. }
  destruct Hdir as [[-> _]|[[-> _]|[-> _]]]; cbn [Z.ltb Z.compare andb]; rewrite ?andb_false_r, ?andb_true_r.
  - destruct (Z.eqb_spec (Z.of_nat i) 0); [lia|done].
  - destruct (Z.eqb_spec (Z.of_nat i) (Z.of_nat n - 1)); [lia|done].
  - done.
Qed.
(** A section two or more away from the first one is out of reach of the starting point. *)
Lemma far_outside k s : pc_sections pc !! k = Some s → (i0 + 2 <= k)%nat ∨ (k + 2 <= i0)%nat → section_outside t s (along p d 0) = true.
Proof.
  intros Hs Hk. pose proof kConeTolerance_pos. destruct (proj2 Hspan k s Hs) as (a & b & Ha & Hb & Hsh & Hdz).
  assert (Hf : vz p + kConeTolerance < a ∨ b + kConeTolerance < vz p).
  { destruct Hk as [Hk|Hk].
    - left. destruct (zs_at pc Hspan (i0 + 2)) as [c Hc]; [apply lookup_lt_Some in Hs; lia|].
      pose proof (Hap (i0 + 1)%nat b0 c Hb0 ltac:(by replace (Datatypes.S (i0 + 1)) with (i0 + 2)%nat by lia)).
      pose proof (increasing_le _ (i0 + 2) k _ _ Hinc Hk Hc Ha). lra.
    - right. destruct (zs_at pc Hspan (i0 - 1)) as [c Hc]; [apply lookup_lt_Some in Ha0; rewrite (proj1 Hspan) in Ha0; lia|].
      pose proof (Hap (i0 - 1)%nat c a0 Hc ltac:(by replace (Datatypes.S (i0 - 1)) with i0 by lia)).
      pose proof (increasing_le _ (Datatypes.S k) (i0 - 1) _ _ Hinc ltac:(lia) Hb Hc). lra. }
  pose proof (Hap k a b Ha Hb).
  unfold section_outside, cone_inside, cone_kernel. cbn [plus_tol minus_tol andb].
  assert (Hg : Rabs (vz (shifted s (along p d 0))) > k_dz (sec_solid s) + kConeTolerance).
  { unfold shifted, vsub. cbn [vz]. rewrite vz_along, Hsh, Hdz. unfold Rabs. destruct (Rcase_abs _); lra. }
  rewrite (proj2 (rgtb_true _ _) Hg) || (destruct (rgtb_spec (Rabs (vz (shifted s (along p d 0)))) (k_dz (sec_solid s) + kConeTolerance)); [|lra]).
  destruct (rltb_spec (Rabs (vz (shifted s (along p d 0)))) (k_dz (sec_solid s) - kConeTolerance)); [lra|]. done.
Qed.

Lemma lin_closure_low x v D a : 0 < D → (∀ h, 0 < h < D → a < x + h * v) → a <= x.
Proof.
  intros HD H. apply Rnot_lt_le. intros Hx. pose proof (H (D / 2) ltac:(lra)) as H1. assert (Hv : 0 < v) by nra.
  set (h := Rmin (D / 2) ((a - x) / v)).
  assert (Hd : 0 < (a - x) / v) by (apply Rdiv_lt_0_compat; lra).
  assert (Hh : 0 < h) by (apply Rmin_glb_lt; lra).
  pose proof (Rmin_l (D / 2) ((a - x) / v)). pose proof (Rmin_r (D / 2) ((a - x) / v)). fold h in H0, H2.
  pose proof (H h ltac:(lra)) as H3. apply Rmult_le_compat_r with (r := v) in H2; [|lra].
  replace ((a - x) / v * v) with (a - x) in H2 by (field; lra). lra.
Qed.
Lemma lin_closure x v D a b : 0 < D → (∀ h, 0 < h < D → a < x + h * v < b) → a <= x <= b ∧ a <= x + D * v <= b.
Proof.
  intros HD H. split_and!.
  - apply (lin_closure_low x v D); [done|]. intros h Hh. apply H, Hh.
  - assert (- b <= - x); [|lra]. apply (lin_closure_low (- x) (- v) D); [done|]. intros h Hh. pose proof (H h Hh). lra.
  - apply (lin_closure_low (x + D * v) (- v) D); [done|]. intros h Hh. pose proof (H (D - h) ltac:(lra)). nra.
  - assert (- b <= - (x + D * v)); [|lra]. apply (lin_closure_low (- (x + D * v)) v D); [done|]. intros h Hh. pose proof (H (D - h) ltac:(lra)). nra.
Qed.
Lemma only_mono (P Q : nat → Prop) T : only P T → (∀ k, P k → Q k) → only Q T.
Proof. intros (e & He & H) HPQ. exists e. split; [done|]. intros u k Hu Hk. apply HPQ. by apply (H u). Qed.
Lemma only_gone (P : nat → Prop) i T : only P T → gone (S i) p d T → only (λ k, P k ∧ k ≠ i) T.
Proof.
  intros (e1 & He1 & H1) (e2 & He2 & H2). exists (Rmin e1 e2). split; [by apply Rmin_glb_lt|]. pose proof (Rmin_l e1 e2). pose proof (Rmin_r e1 e2).
  intros u k Hu Hk. split; [apply (H1 u); [lra|done]|]. intros ->. apply (H2 u); [lra|done].
Qed.
Lemma only_none T : only (λ _, False) T → gone (any_of S) p d T.
Proof. intros (e & He & H). exists e. split; [done|]. intros u Hu [k Hk]. by apply (H u k). Qed.
(** At time [T] the ray is between the planes of section [j]. *)
Definition within (j : Z) (T : R) : Prop :=
  (0 <= j)%Z ∧ ∃ a b, pc_zs pc !! Z.to_nat j = Some a ∧ pc_zs pc !! (Z.to_nat j + 1)%nat = Some b ∧ a <= vz (along p d T) <= b.
(** A time at which the ray is between the planes of two neighbouring sections is a seam. *)
Lemma within_seam i T : (inc ≠ 0)%Z → within (Z.of_nat i - inc) T → within (Z.of_nat i) T → vz (along p d T) ∈ pc_zs pc.
Proof.
  intros Hne [Hj (a & b & Ha & Hb & Hz)] [_ (a' & b' & Ha' & Hb' & Hz')]. rewrite Nat2Z.id in Ha', Hb'.
  destruct Hdir as [[-> _]|[[-> _]|[? _]]]; [..|done].
  - replace (Z.to_nat (Z.of_nat i - 1) + 1)%nat with i in Hb by lia. rewrite Ha' in Hb. injection Hb as <-.
    apply elem_of_list_lookup. exists i. rewrite Ha'. f_equal. lra.
  - replace (Z.to_nat (Z.of_nat i - -1)) with (i + 1)%nat in Ha by lia. rewrite Hb' in Ha. injection Ha as <-.
    apply elem_of_list_lookup. exists (i + 1)%nat. rewrite Hb'. f_equal. lra.
Qed.

Lemma out_loop fuel i istep total pn :
  (2 <= n)%nat → (i < n)%nat → Z.of_nat i = (Z.of_nat i0 + Z.of_nat istep * inc)%Z → (inc = 0%Z → istep = 0%nat) →
  (if (inc =? 1)%Z then n - i <= fuel else if (inc =? -1)%Z then i < fuel else 1 <= fuel)%nat →
  0 <= total → inside_until total → only (λ k, k = i) total → (total = 0 → (istep < 2)%nat) →
  (istep = 0%nat ∧ total = 0) ∨ only (λ _, False) total ∨ (istep ≠ 0%nat ∧ within (Z.of_nat i - inc) total) →
  ∃ r, to_out_loop inf cone_to_out t pc p d smax inc fuel (Z.of_nat i) istep total pn = Some r ∧ 0 <= r ∧ out_answer r.
Proof.
  revert i istep total pn. induction fuel as [|f IH]; intros i istep total pn Hn Hi Est Hst Hfu Htot Hin Hon Hch Hprev.
  { destruct (Z.eqb_spec inc 1); [lia|]. destruct (Z.eqb_spec inc (-1)); lia. }
  pose proof kTolerance_pos as Htol.
  destruct (section_at pc i Hi) as (s & Hs & Hg). cbn [to_out_loop]. rewrite Hg. cbn [mbind option_bind].
  assert (Hcheck : negb (reqb total 0) || (istep <? 2)%nat = true).
  { destruct (reqb_spec total 0) as [E|E]; [|done]. cbn [negb orb]. apply Nat.ltb_lt. by apply Hch. }
  rewrite Hcheck. cbn [andb]. fold (section_outside t s (along p d total)).
  destruct (section_outside t s (along p d total)) eqn:Eo.
  { exists total. split; [done|]. split; [done|]. exists total. split; [lra|]. split; [done|].
    apply (gone_all _ _ Hon). destruct (Hgone i s total Hs Htot Eo) as (e & He & Hge). exists e. split; [done|]. intros u k Hu ->. by apply Hge. }
  pose proof (Hstay i s total Hs Htot Eo) as (HD & HS & Haft).
  set (D := cone_to_out t (sec_solid s) (shifted s (along p d total)) d smax) in *.
  destruct (reqb_spec D (-1)); [lra|].
  destruct (zs_at pc Hspan i) as [a Ha]; [unfold n in *; lia|]. destruct (zs_at pc Hspan (i + 1)) as [b Hb]; [unfold n in *; lia|].
  assert (Hclo : 0 < D → a <= vz (along p d total) <= b ∧ a <= vz (along p d (total + D)) <= b).
  { intros HDp. rewrite !vz_along. replace (vz p + (total + D) * vz d) with (vz p + total * vz d + D * vz d) by ring.
    apply lin_closure; [done|]. intros h Hh. pose proof (HS (total + h) ltac:(lra)) as Hk. destruct (Hconf _ _ Hk) as (x & y & Hx & Hy & Hzz).
    rewrite Ha in Hx. injection Hx as <-. rewrite Hb in Hy. injection Hy as <-. rewrite vz_along in Hzz.
    replace (vz p + (total + h) * vz d) with (vz p + total * vz d + h * vz d) in Hzz by ring. done. }
  assert (Hin' : inside_until (total + D)).
  { intros u Hu. destruct (Rlt_dec u total) as [Hl|Hl]; [apply Hin; lra|]. destruct (Rlt_dec total u) as [Hg2|Hg2].
    - left. exists i. apply HS. lra.
    - assert (u = total) as -> by lra. assert (HDp : 0 < D) by lra. destruct (Hclo HDp) as [Hc1 _].
      destruct Hprev as [[_ E]|[Hno|[Hst' Hwi]]].
      + lra.
      + exfalso. destruct Hno as (e & He & Hno). pose proof (Rmin_l (e / 2) (D / 2)). pose proof (Rmin_r (e / 2) (D / 2)).
        assert (0 < Rmin (e / 2) (D / 2)) by (apply Rmin_glb_lt; lra).
        apply (Hno (total + Rmin (e / 2) (D / 2)) i); [lra|]. apply HS. lra.
      + right. apply (within_seam i); [intros E; apply Hst', Hst, E|done|].
        split; [lia|]. exists a, b. rewrite Nat2Z.id. done. }
  assert (Hnext : only (λ k, inc ≠ 0%Z ∧ Z.of_nat k = (Z.of_nat i + inc)%Z) (total + D) ∧
                  (only (λ _, False) (total + D) ∨ within (Z.of_nat i) (total + D))).
  { destruct (Rle_lt_or_eq_dec 0 D HD) as [HDp|HD0].
    - destruct (Hclo HDp) as [_ Hc2]. split.
      + assert (Hoa : only (λ k, Z.of_nat k = Z.of_nat i ∨ Z.of_nat k = (Z.of_nat i + inc)%Z) (total + D)).
        { apply (only_after i a b); [done|done|done|done|]. intros E. assert (vz d = 0) as Hd0 by (destruct Hdir as [[? _]|[[? _]|[_ ?]]]; [lia|lia|done]).
          pose proof (HS (total + D / 2) ltac:(lra)) as Hk. destruct (Hconf _ _ Hk) as (x & y & Hx & Hy & Hzz).
          rewrite Ha in Hx. injection Hx as <-. rewrite Hb in Hy. injection Hy as <-. rewrite vz_along, Hd0 in Hzz |- *. lra. }
        eapply only_mono; [apply (only_gone _ i _ Hoa Haft)|]. cbn. intros k [[E|E] Hne]; [lia|]. split; [|done]. intros ->. lia.
      + right. split; [lia|]. exists a, b. rewrite Nat2Z.id. done.
    - assert (Hno : only (λ _, False) (total + D)).
      { rewrite <- HD0, Rplus_0_r in Haft |- *. eapply only_mono; [apply (only_gone _ i _ Hon Haft)|]. cbn. intros k [? ?]. done. }
      split; [|by left]. eapply only_mono; [exact Hno|done]. }
  destruct Hnext as [Hnx Hnx'].
  set (go := negb (inc =? 0)%Z && (0 <=? Z.of_nat i + inc)%Z && (Z.of_nat i + inc <? nsections pc)%Z).
  assert (Hend : go = false → gone (any_of S) p d (total + D)).
  { intros Hgo. apply only_none. destruct Hnx as (e & He & Hnx). exists e. split; [done|]. intros u k Hu Hk. destruct (Hnx u k Hu Hk) as [H1 H2].
    pose proof (S_index pc S Hspan Hconf k _ Hk). revert Hgo. unfold go, nsections. fold n.
    destruct (Z.eqb_spec inc 0); [done|]. destruct (Z.leb_spec 0 (Z.of_nat i + inc)); [|lia]. destruct (Z.ltb_spec (Z.of_nat i + inc) (Z.of_nat n)); [done|lia]. }
  assert (Hgo : go = true → inc ≠ 0%Z ∧ (0 <= Z.of_nat i + inc < Z.of_nat n)%Z).
  { unfold go, nsections. fold n. destruct (Z.eqb_spec inc 0); [done|]. destruct (Z.leb_spec 0 (Z.of_nat i + inc)); [|done].
    destruct (Z.ltb_spec (Z.of_nat i + inc) (Z.of_nat n)); [|done]. intros _. split; [done|lia]. }
  (* the small-step check *)
  assert (Hstop : ∃ stop, (if rltb (Rabs D) (5 / 10 * kTolerance) then
              sec1 ← get_section pc (next_index pc inc (Z.of_nat i));
              Some (section_outside t sec1 (along p d (total + D)) || (inc =? 0)%Z)
            else Some false) = Some stop ∧
            (stop = true → D < 5 / 10 * kTolerance ∧ gone (any_of S) p d (total + D)) ∧
            (stop = false → D = 0 → go = true → ∃ s1, pc_sections pc !! Z.to_nat (Z.of_nat i + inc) = Some s1 ∧ section_outside t s1 (along p d (total + D)) = false)).
  { destruct (rltb_spec (Rabs D) (5 / 10 * kTolerance)) as [Hsm|Hbig].
    2: { exists false. split; [done|]. split; [done|]. intros _ E. rewrite E, Rabs_R0 in Hbig. lra. }
    rewrite Rabs_pos_eq in Hsm by lra.
    destruct go eqn:Ego.
    - destruct (Hgo eq_refl) as [Hi1 Hi2]. rewrite (next_index_in i Hn Hi Hi2).
      destruct (section_at pc (Z.to_nat (Z.of_nat i + inc))) as (s1 & Hs1 & Hg1); [unfold n in *; lia|].
      rewrite Z2Nat.id in Hg1 by lia. rewrite Hg1. cbn [mbind option_bind]. rewrite (proj2 (Z.eqb_neq _ _) Hi1), orb_false_r.
      eexists; split; [reflexivity|]. split.
      + intros Ho. split; [done|]. apply (gone_all _ _ Hnx). destruct (Hgone _ s1 (total + D) Hs1 ltac:(lra) Ho) as (e & He & Hge).
        exists e. split; [done|]. intros u k Hu [_ E]. replace k with (Z.to_nat (Z.of_nat i + inc)) by lia. by apply Hge.
      + intros Ho _ _. exists s1. done.
    - assert (Hg1 : ∃ s1, get_section pc (next_index pc inc (Z.of_nat i)) = Some s1).
      { destruct (Z.eq_dec inc 0%Z) as [E|E].
        - rewrite next_index_in; [|done|done|lia]. rewrite E, Z.add_0_r. by exists s.
        - rewrite next_index_end; [by exists s|done|done|]. intros Hx. revert Ego. unfold go, nsections. fold n.
          destruct (Z.eqb_spec inc 0); [done|]. destruct (Z.leb_spec 0 (Z.of_nat i + inc)); [|lia]. destruct (Z.ltb_spec (Z.of_nat i + inc) (Z.of_nat n)); [done|lia]. }
      destruct Hg1 as [s1 ->]. cbn [mbind option_bind]. eexists; split; [reflexivity|]. split; [|done].
      intros _. split; [done|]. by apply Hend. }
  destruct Hstop as (stop & -> & Hst1 & Hst2). cbn [mbind option_bind]. destruct stop.
  { destruct (Hst1 eq_refl) as [H1 H2]. exists total. split; [done|]. split; [done|]. exists (total + D). split; [lra|]. split; done. }
  fold go. destruct go eqn:Ego.
  - destruct (Hgo eq_refl) as [Hi1 Hi2]. replace (Z.of_nat i + inc)%Z with (Z.of_nat (Z.to_nat (Z.of_nat i + inc))) by lia.
    apply IH; [done|unfold n in *; lia|rewrite Z2Nat.id by lia; lia|done| |lra|done| | |].
    + destruct Hdir as [[-> _]|[[-> _]|[? _]]]; [..|done]; cbn in Hfu |- *; lia.
    + eapply only_mono; [exact Hnx|]. cbn. intros k [_ E]. lia.
    + intros E. assert (total = 0) by lra. assert (D = 0) by lra. specialize (Hch H).
      destruct (decide (Datatypes.S istep < 2)%nat); [done|]. exfalso.
      destruct (Hst2 eq_refl H0 eq_refl) as (s1 & Hs1 & Ho). replace (total + D) with 0 in Ho by lra.
      assert (section_outside t s1 (along p d 0) = true); [|congruence].
      apply (far_outside _ s1 Hs1). assert (istep = 1%nat) by lia. subst istep.
      destruct Hdir as [[-> _]|[[-> _]|[? _]]]; [left|right|done]; lia.
    + destruct Hnx' as [Hno|Hwi]; [by right; left|]. right; right. split; [done|].
      replace (Z.of_nat (Z.to_nat (Z.of_nat i + inc)) - inc)%Z with (Z.of_nat i) by lia. done.
  - exists (total + D). split; [done|]. split; [lra|]. exists (total + D). split; [lra|]. split; [done|]. by apply Hend.
Qed.
End out.

Lemma located_at pc z i a b j : increasing (pc_zs pc) → pc_zs pc !! i = Some a → pc_zs pc !! (i + 1)%nat = Some b → a < z < b →
  length (pc_zs pc) = S (length (pc_sections pc)) → located pc z j → j = Z.of_nat i.
Proof.
  intros Hinc Ha Hb Hz Hl H. pose proof (lookup_lt_Some _ _ _ Hb) as Hlt. destruct H as [x Hx Hxl|x y Hx Hge Hy Hn|k x y Hk Hx Hy Hxy _].
  - pose proof (increasing_le _ 0 i _ _ Hinc ltac:(lia) Hx Ha). lra.
  - assert (y < z) by (apply Hn; intros E; rewrite E in *; cbn in *; lia).
    pose proof (increasing_le _ (i + 1) (length (pc_sections pc)) _ _ Hinc ltac:(lia) Hb Hy). lra.
  - f_equal. destruct (decide (k < i)%nat).
    + pose proof (increasing_le _ (S k) i _ _ Hinc ltac:(lia) Hy Ha). lra.
    + destruct (decide (i < k)%nat); [|lia]. pose proof (increasing_le _ (i + 1) k _ _ Hinc ltac:(lia) Hb Hx). lra.
Qed.
Theorem poly_to_out_exit inf cone_to_out t pc (S : nat → v3 → Prop) p d smax i0 s0 a0 b0 :
  spans pc → apart kConeTolerance (pc_zs pc) → confined (pc_zs pc) S →
  (∀ k s T, pc_sections pc !! k = Some s → 0 <= T → section_outside t s (along p d T) = false →
     stays (S k) p d T (cone_to_out t (sec_solid s) (shifted s (along p d T)) d smax)) →
  (∀ k s T, pc_sections pc !! k = Some s → 0 <= T → section_outside t s (along p d T) = true → gone (S k) p d T) →
  kTolerance <= Rabs (vz d) ∨ vz d = 0 →
  pc_sections pc !! i0 = Some s0 → pc_zs pc !! i0 = Some a0 → pc_zs pc !! (i0 + 1)%nat = Some b0 →
  a0 + kTolerance < vz p < b0 - kTolerance → section_outside t s0 p = false →
  ∃ r, poly_to_out inf cone_to_out t pc p d smax = Some r ∧ 0 <= r ∧ out_answer pc S p d r.
Proof.
  intros Hspan Hap Hconf Hstay Hgone Hd Hs0 Ha0 Hb0 Hz Ho. pose proof kTolerance_pos as Ht. pose proof kConeTolerance_pos as Hct.
  assert (Hinc : increasing (pc_zs pc)) by (apply apart_increasing with kConeTolerance; [lra|done]).
  pose proof (lookup_lt_Some _ _ _ Hs0) as Hi0.
  assert (Hp0 : along p d 0 = p) by (apply v3_eq; unfold along, vadd, vscale; cbn; ring).
  unfold poly_to_out. destruct (Z.eqb_spec (nsections pc) 1) as [E1|E1].
  - unfold nsections in E1. assert (i0 = 0)%nat as -> by lia.
    pose proof (get_section_at pc 0 s0 Hs0) as Hg. change (Z.of_nat 0) with 0%Z in Hg. rewrite Hg. cbn [mbind option_bind].
    eexists; split; [reflexivity|]. pose proof (Hstay 0%nat s0 0 Hs0 ltac:(lra)) as Hst. rewrite Hp0 in Hst. destruct (Hst Ho) as (H1 & H2 & e & He & H3).
    split; [done|]. eexists. split; [split; [apply Rle_refl|lra]|]. split.
    + intros u Hu. left. exists 0%nat. apply H2. lra.
    + exists e. split; [done|]. intros u Hu [k Hk]. pose proof (S_index pc S Hspan Hconf k _ Hk). replace k with 0%nat in Hk by lia.
      apply (H3 u); [lra|done].
  - assert (Hstart : start_section t pc p = Some (inr (Z.of_nat i0))).
    { unfold start_section.
      destruct (section_index_located pc (vz p - kTolerance) (proj1 Hspan) Hinc) as (low & -> & Hl).
      destruct (section_index_located pc (vz p + kTolerance) (proj1 Hspan) Hinc) as (high & -> & Hh).
      apply (located_at pc _ i0 a0 b0) in Hl as ->; [|done|done|done|lra|apply Hspan].
      apply (located_at pc _ i0 a0 b0) in Hh as ->; [|done|done|done|lra|apply Hspan].
      cbn [mbind option_bind]. destruct (Z.ltb_spec (Z.of_nat i0) 0); [lia|]. rewrite Z.eqb_refl. cbn [andb negb mbind option_bind].
      destruct (Z.ltb_spec (Z.of_nat i0) 0); [lia|]. rewrite (get_section_at pc i0 s0 Hs0). cbn [mbind option_bind]. by rewrite Ho. }
    rewrite Hstart. cbn [mbind option_bind].
    apply (out_loop inf cone_to_out t pc S p d smax Hspan Hap Hconf Hstay Hgone (increment d)) with (i0 := i0) (a0 := a0) (b0 := b0).
    + unfold increment. destruct (rltb_spec (Rabs (vz d)) kTolerance); [right; right; split; [done|]; destruct Hd; [lra|done]|].
      destruct (rgtb_spec (vz d) 0); [left; split; [done|lra]|right; left; split; [done|]].
      unfold Rabs in *. destruct (Rcase_abs (vz d)); lra.
    + done.
    + done.
    + lra.
    + unfold nsections in E1. lia.
    + done.
    + lia.
    + done.
    + destruct (increment d =? 1)%Z; [lia|]. destruct (increment d =? -1)%Z; lia.
    + lra.
    + intros u Hu. lra.
    + apply (only_start pc S p d) with (a0 := a0) (b0 := b0); try done. lra.
    + lia.
    + by left.
Qed.
