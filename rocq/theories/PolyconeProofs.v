(** Lemmas about polycones. *)
From Coq Require Import Reals Lra Lia Bool.
From stdpp Require Import base list option numbers tactics.
From Verif Require Import Real3 BoxModel ConeModel ConeSpec ConeProofs PolyconeModel PolyconeSpec.
Import stdpp.list.
Local Open Scope R_scope.

(** * Section lookup *)
Lemma apart_increasing g zs : 0 <= g → apart g zs → increasing zs.
Proof.
  intros Hg Ha i j. revert i. induction j as [|j IH]; intros i a b Hij Hi Hj; [lia|].
  destruct (zs !! j) as [c|] eqn:E.
  2: { apply lookup_ge_None in E. apply lookup_lt_Some in Hj. lia. }
  pose proof (Ha j c b E Hj). destruct (decide (i = j)) as [->|]; [rewrite Hi in E; injection E as ->; lra|].
  pose proof (IH i a c ltac:(lia) Hi eq_refl). lra.
Qed.
Lemma increasing_le zs i j a b : increasing zs → (i <= j)%nat → zs !! i = Some a → zs !! j = Some b → a <= b.
Proof.
  intros H Hij Hi Hj. destruct (decide (i = j)) as [->|]; [rewrite Hi in Hj; injection Hj as ->; lra|].
  left. apply (H i j); auto; lia.
Qed.

Lemma scan_sections_spec z i0 zs secs :
  length zs = S (length secs) → increasing zs → (∀ a, zs !! 0%nat = Some a → a <= z) →
  (∃ k a b, (k < length secs)%nat ∧ zs !! k = Some a ∧ zs !! S k = Some b ∧ a <= z <= b ∧
     (∀ c, (0 < k)%nat → zs !! k = Some c → c < z) ∧ scan_sections z i0 zs secs = Some (i0 + Z.of_nat k)%Z) ∨
  (∃ b, zs !! length secs = Some b ∧ (secs ≠ [] → b < z) ∧ scan_sections z i0 zs secs = Some (-2)%Z).
Proof.
  revert i0 zs. induction secs as [|s ss IH]; intros i0 zs Hl Hs H0.
  - right. destruct zs as [|a [|? ?]]; try discriminate. exists a. done.
  - destruct zs as [|a [|b zs]]; try discriminate. cbn [scan_sections].
    pose proof (H0 a eq_refl) as Ha.
    destruct (rgeb_spec z a); [|lra]. destruct (rleb_spec z b) as [Hb|Hb]; cbn [andb].
    + left. exists 0%nat, a, b. rewrite Z.add_0_r. repeat split; auto; cbn; try lia; try lra.
    + edestruct (IH (i0 + 1)%Z (b :: zs)) as [(k & c & d & Hk & Hc & Hd & Hz & Hf & E)|(c & Hc & Hn & E)].
      { cbn in Hl |- *. lia. }
      { intros i j x y Hij Hx Hy. apply (Hs (S i) (S j)); auto; lia. }
      { intros x [= <-]. lra. }
      * left. exists (S k), c, d. split; [cbn; lia|]. split; [exact Hc|]. split; [exact Hd|]. split; [exact Hz|]. split.
        -- intros x _ Hx. change ((a :: b :: zs) !! S k) with ((b :: zs) !! k) in Hx.
           destruct k as [|k]; [injection Hx as <-; lra|]. apply (Hf x); [lia|exact Hx].
        -- etransitivity; [exact E|]. f_equal. lia.
      * right. exists c. split; [exact Hc|]. split; [|exact E]. intros _.
        destruct ss as [|s' ss]; [injection Hc as <-; lra|apply Hn; done].
Qed.

(** What the section lookup answers. *)
Inductive located (pc : polycone) (z : R) : Z → Prop :=
| Below a : pc_zs pc !! 0%nat = Some a → z < a → located pc z (-1)
| Above a b : pc_zs pc !! 0%nat = Some a → a <= z → pc_zs pc !! length (pc_sections pc) = Some b →
    (pc_sections pc ≠ [] → b < z) → located pc z (-2)
| At k a b : (k < length (pc_sections pc))%nat → pc_zs pc !! k = Some a → pc_zs pc !! S k = Some b → a <= z <= b →
    ((0 < k)%nat → a < z) → located pc z (Z.of_nat k).
Lemma section_index_located pc z :
  length (pc_zs pc) = S (length (pc_sections pc)) → increasing (pc_zs pc) →
  ∃ i, section_index pc z = Some i ∧ located pc z i.
Proof.
  intros Hl Hs. unfold section_index. destruct (pc_zs pc) as [|z0 zs] eqn:E; [discriminate|]. cbn.
  destruct (rltb_spec z z0) as [Hlt|Hge].
  { exists (-1)%Z. split; [done|]. apply Below with z0; [by rewrite E|done]. }
  destruct (scan_sections_spec z 0 (z0 :: zs) (pc_sections pc) Hl Hs) as
    [(k & a & b & Hk & Ha & Hb & Hz & Hf & E')|(b & Hb & Hn & E')].
  { intros a [= <-]. lra. }
  - exists (Z.of_nat k). split; [exact E'|]. apply At with a b; rewrite ?E; auto.
  - exists (-2)%Z. split; [exact E'|]. apply Above with z0 b; rewrite ?E; auto. lra.
Qed.

Section lookup.
Variable pc : polycone.
Hypothesis Hspan : spans pc.
Hypothesis Hinc : increasing (pc_zs pc).
Let n := length (pc_sections pc).

Lemma zs_at k : (k <= n)%nat → ∃ a, pc_zs pc !! k = Some a.
Proof. intros H. apply lookup_lt_is_Some. rewrite (proj1 Hspan). unfold n in H. lia. Qed.
Lemma get_section_at k s : pc_sections pc !! k = Some s → get_section pc (Z.of_nat k) = Some s.
Proof. intros H. unfold get_section. destruct (Z.ltb_spec (Z.of_nat k) 0); [lia|]. by rewrite Nat2Z.id. Qed.
Lemma section_at k : (k < n)%nat → ∃ s, pc_sections pc !! k = Some s ∧ get_section pc (Z.of_nat k) = Some s.
Proof.
  intros H. destruct (pc_sections pc !! k) as [s|] eqn:E; [|apply lookup_ge_None in E; unfold n in H; lia].
  exists s. split; [done|by apply get_section_at].
Qed.
(** A point contained in a section lies between the planes of that section. *)
Lemma contains_range t k s p a b :
  pc_sections pc !! k = Some s → pc_zs pc !! k = Some a → pc_zs pc !! S k = Some b →
  cone_contains t (sec_solid s) (shifted s p) = true → a <= vz p <= b.
Proof.
  intros Hs Ha Hb Hc. destruct (proj2 Hspan k s Hs) as (a' & b' & Ha' & Hb' & Hsh & Hdz).
  rewrite Ha in Ha'. injection Ha' as <-. rewrite Hb in Hb'. injection Hb' as <-.
  unfold cone_contains, cone_kernel in Hc. cbn [plus_tol] in Hc.
  destruct (rgtb_spec (Rabs (vz (shifted s p))) (k_dz (sec_solid s))) as [Hg|Hg]; [discriminate|].
  unfold shifted, vsub in Hg. cbn in Hg. rewrite Hsh, Hdz in Hg. unfold Rabs in Hg.
  destruct (Rcase_abs _); lra.
Qed.
End lookup.

Lemma cone_kernel_false_in t c p : (cone_kernel t false c p).1 = false.
Proof. unfold cone_kernel. cbn [andb]. repeat (match goal with |- context [if ?b then _ else _] => destruct b end; try done). Qed.

Section contains.
Variables (t : cone_type) (pc : polycone).
Hypothesis Hspan : spans pc.
Hypothesis Hap : apart (2 * kTolerance) (pc_zs pc).
Let Hinc : increasing (pc_zs pc).
Proof. apply apart_increasing with (2 * kTolerance); [pose proof kTolerance_pos; lra|exact Hap]. Qed.

(** The height of the point lies between the planes of section [k]. *)
Definition in_range (k : nat) (p : v3) : Prop := ∃ a b, pc_zs pc !! k = Some a ∧ pc_zs pc !! S k = Some b ∧ a <= vz p <= b.
(** How the answers of two neighbouring sections are combined. *)
Definition seam (L H : bool * bool) : bool * bool :=
  if (negb L.1 && negb L.2) && (negb H.1 && negb H.2) then (true, false)
  else if L.2 && H.2 then (false, true) else (false, false).
(** What the kernel answers. *)
Inductive answer (fi : bool) (p : v3) : bool * bool → Prop :=
| NoSection : (∀ k s, pc_sections pc !! k = Some s → ¬ in_range k p) → answer fi p (false, true)
| OneSection k s : pc_sections pc !! k = Some s →
    (∀ k' s', pc_sections pc !! k' = Some s' → k' ≠ k → ¬ in_range k' p) →
    answer fi p (cone_kernel t fi (sec_solid s) (shifted s p))
| TwoSections k s s' b : pc_sections pc !! k = Some s → pc_sections pc !! S k = Some s' →
    pc_zs pc !! S k = Some b → Rabs (vz p - b) <= kTolerance →
    (∀ k' s', pc_sections pc !! k' = Some s' → k' ≠ k → k' ≠ S k → ¬ in_range k' p) →
    answer fi p (seam (cone_kernel t fi (sec_solid s) (shifted s p)) (cone_kernel t fi (sec_solid s') (shifted s' p))).

Lemma section_kernel_at fi k s p : pc_sections pc !! k = Some s →
  section_kernel t fi pc (Z.of_nat k) p = Some (cone_kernel t fi (sec_solid s) (shifted s p)).
Proof.
  intros H. unfold section_kernel. destruct (Z.ltb_spec (Z.of_nat k) 0); [lia|]. by rewrite (get_section_at pc k s H).
Qed.

Lemma poly_kernel_answer fi p : ∃ r, poly_kernel t fi pc p = Some r ∧ answer fi p r.
Proof.
  pose proof kTolerance_pos as Ht. set (z := vz p).
  destruct (section_index_located pc (z - kTolerance) (proj1 Hspan) Hinc) as (low & El & Hl).
  destruct (section_index_located pc (z + kTolerance) (proj1 Hspan) Hinc) as (high & Eh & Hh).
  assert (Hnone : ∀ k a b, pc_zs pc !! k = Some a → pc_zs pc !! S k = Some b → z < a ∨ b < z → ¬ in_range k p).
  { intros k a b Ha Hb Hz (a' & b' & Ha' & Hb' & Hr). rewrite Ha in Ha'. injection Ha' as <-. rewrite Hb in Hb'. injection Hb' as <-.
    unfold z in Hz. lra. }
  assert (Hside : ∀ k' s', pc_sections pc !! k' = Some s' → ∃ a b, pc_zs pc !! k' = Some a ∧ pc_zs pc !! S k' = Some b).
  { intros k' s' Hs'. apply lookup_lt_Some in Hs'. destruct (zs_at pc Hspan k') as [a Ha]; [lia|].
    destruct (zs_at pc Hspan (S k')) as [b Hb]; [lia|]. by exists a, b. }
  unfold poly_kernel. fold z. rewrite El, Eh. cbn [mbind option_bind].
  destruct Hl as [a Ha Hlt|a b Ha Hge Hb Hn|k a b Hk Ha Hb Hz Hf], Hh as [a' Ha' Hlt'|a' b' Ha' Hge' Hb' Hn'|k' a' b' Hk' Ha' Hb' Hz' Hf'].
  - (* below, below *) exists (false, true). split; [done|]. apply NoSection. intros k s Hs.
    destruct (Hside k s Hs) as (c & d & Hc' & Hd). apply (Hnone k c d Hc' Hd). left.
    pose proof (increasing_le _ 0 k _ _ Hinc ltac:(lia) Ha' Hc'). lra.
  - (* below, above *) exists (false, true). split; [done|]. apply NoSection. intros k s Hs. exfalso.
    destruct (Hside k s Hs) as (c & d & Hc' & Hd). pose proof (lookup_lt_Some _ _ _ Hs).
    assert (b' < z + kTolerance) by (apply Hn'; intros E; rewrite E in Hs; done).
    pose proof (Hap k c d Hc' Hd). pose proof (increasing_le _ 0 k _ _ Hinc ltac:(lia) Ha Hc').
    pose proof (increasing_le _ (S k) (length (pc_sections pc)) _ _ Hinc ltac:(lia) Hd Hb'). lra.
  - (* below, k' *) assert (k' = 0)%nat as ->.
    { destruct (decide (k' = 0)%nat) as [|Hne]; [done|exfalso].
      destruct (zs_at pc Hspan 1) as [c Hc]; [lia|]. pose proof (Hap 0%nat a c Ha Hc).
      pose proof (increasing_le _ 1 k' _ _ Hinc ltac:(lia) Hc Ha'). specialize (Hf' ltac:(lia)). lra. }
    destruct (section_at pc 0%nat Hk') as (s & Hs & Hg). pose proof (section_kernel_at fi 0 s p Hs) as Hk0.
    change (Z.of_nat 0) with 0%Z in Hk0 |- *. cbn [Z.ltb Z.compare Z.eqb andb]. rewrite Hk0.
    eexists; split; [reflexivity|]. apply OneSection with (k := 0%nat); [done|].
    intros j s' Hs' Hj. destruct (Hside j s' Hs') as (c & d & Hc & Hd). apply (Hnone j c d Hc Hd). left.
    pose proof (Hap 0%nat a' b' Ha' Hb'). pose proof (increasing_le _ 1 j _ _ Hinc ltac:(lia) Hb' Hc).
    rewrite Ha in Ha'. injection Ha' as <-. lra.
  - (* above, below *) exfalso. rewrite Ha in Ha'. injection Ha' as <-. lra.
  - (* above, above *) exists (false, true). split; [done|]. apply NoSection. intros k s Hs.
    destruct (Hside k s Hs) as (c & d & Hc' & Hd). pose proof (lookup_lt_Some _ _ _ Hs).
    apply (Hnone k c d Hc' Hd). right.
    assert (b < z - kTolerance) by (apply Hn; intros E; rewrite E in Hs; done).
    pose proof (increasing_le _ (S k) (length (pc_sections pc)) _ _ Hinc ltac:(lia) Hd Hb). lra.
  - (* above, k' *) exfalso. assert (b < z - kTolerance) by (apply Hn; intros E; rewrite E in Hk'; cbn in Hk'; lia).
    pose proof (increasing_le _ (S k') (length (pc_sections pc)) _ _ Hinc ltac:(lia) Hb' Hb). lra.
  - (* k, below *) exfalso. pose proof (increasing_le _ 0 k _ _ Hinc ltac:(lia) Ha' Ha). lra.
  - (* k, above *) assert (b' < z + kTolerance) by (apply Hn'; intros E; rewrite E in Hk; cbn in Hk; lia).
    assert (S k = length (pc_sections pc)) as Ek.
    { destruct (decide (S k = length (pc_sections pc))) as [|Hne]; [done|exfalso].
      destruct (zs_at pc Hspan (S (S k))) as [c Hc]; [lia|]. pose proof (Hap (S k) b c Hb Hc).
      pose proof (increasing_le _ (S (S k)) (length (pc_sections pc)) _ _ Hinc ltac:(lia) Hc Hb'). lra. }
    destruct (section_at pc k Hk) as (s & Hs & Hg). unfold nsections. rewrite <- Ek.
    replace (Z.of_nat (S k) - 1)%Z with (Z.of_nat k) by lia.
    destruct (Z.ltb_spec (Z.of_nat k) 0); [lia|]. rewrite Z.eqb_refl. cbn [andb Z.ltb Z.compare Z.leb].
    rewrite (section_kernel_at fi k s p Hs).
    eexists; split; [reflexivity|]. apply OneSection with (k := k); [done|].
    intros j s' Hs' Hj. destruct (Hside j s' Hs') as (c & d & Hc & Hd). apply (Hnone j c d Hc Hd). right.
    pose proof (lookup_lt_Some _ _ _ Hs'). pose proof (increasing_le _ (S j) k _ _ Hinc ltac:(lia) Hd Ha).
    specialize (Hf ltac:(lia)). lra.
  - (* k, k' *) destruct (Z.ltb_spec (Z.of_nat k) 0); [lia|]. destruct (Z.ltb_spec (Z.of_nat k') 0); [lia|].
    destruct (Z.leb_spec 0 (Z.of_nat k)); [|lia]. destruct (Z.leb_spec 0 (Z.of_nat k')); [|lia]. cbn [andb].
    destruct (section_at pc k Hk) as (s & Hs & Hg). destruct (section_at pc k' Hk') as (s' & Hs' & Hg').
    assert (k <= k')%nat.
    { destruct (decide (k <= k')%nat); [done|exfalso]. pose proof (increasing_le _ (S k') k _ _ Hinc ltac:(lia) Hb' Ha). lra. }
    destruct (Z.eqb_spec (Z.of_nat k) (Z.of_nat k')) as [Ek|Ek].
    + assert (k' = k) as -> by lia. rewrite (section_kernel_at fi k s p Hs).
      eexists; split; [reflexivity|]. apply OneSection with (k := k); [done|].
      rewrite Ha in Ha'. injection Ha' as <-. rewrite Hb in Hb'. injection Hb' as <-.
      intros j s'' Hs'' Hj. destruct (Hside j s'' Hs'') as (c & d & Hc & Hd). apply (Hnone j c d Hc Hd).
      destruct (decide (j < k)%nat).
      * right. pose proof (increasing_le _ (S j) k _ _ Hinc ltac:(lia) Hd Ha). lra.
      * left. pose proof (increasing_le _ (S k) j _ _ Hinc ltac:(lia) Hb Hc). lra.
    + assert (k' = S k) as ->.
      { destruct (decide (k' = S k)) as [|Hne]; [done|exfalso].
        destruct (zs_at pc Hspan (S (S k))) as [c Hc]; [lia|]. pose proof (Hap (S k) b c Hb Hc).
        pose proof (increasing_le _ (S (S k)) k' _ _ Hinc ltac:(lia) Hc Ha'). specialize (Hf' ltac:(lia)). lra. }
      rewrite (section_kernel_at fi k s p Hs), (section_kernel_at fi (S k) s' p Hs'). cbn [mbind option_bind].
      rewrite Hb in Ha'. injection Ha' as <-. specialize (Hf' ltac:(lia)).
      exists (seam (cone_kernel t fi (sec_solid s) (shifted s p)) (cone_kernel t fi (sec_solid s') (shifted s' p))). split.
      { destruct (cone_kernel t fi (sec_solid s) (shifted s p)) as [i1 o1], (cone_kernel t fi (sec_solid s') (shifted s' p)) as [i2 o2].
        unfold seam. cbn [fst snd]. destruct ((negb i1 && negb o1) && (negb i2 && negb o2)); [done|]. by destruct (o1 && o2). }
      apply TwoSections with (k := k) (b := b); [done|done|done|unfold Rabs, z in *; destruct (Rcase_abs _); lra|].
      intros j s'' Hs'' Hjk Hjk'. destruct (Hside j s'' Hs'') as (c & d & Hc & Hd). apply (Hnone j c d Hc Hd).
      destruct (decide (j < k)%nat).
      * right. pose proof (increasing_le _ (S j) k _ _ Hinc ltac:(lia) Hd Ha). specialize (Hf ltac:(lia)). lra.
      * left. pose proof (increasing_le _ (S (S k)) j _ _ Hinc ltac:(lia) Hb' Hc). lra.
Qed.

Lemma contains_in_range k s p : pc_sections pc !! k = Some s → cone_contains t (sec_solid s) (shifted s p) = true → in_range k p.
Proof.
  intros Hs Hc. pose proof (lookup_lt_Some _ _ _ Hs). destruct (zs_at pc Hspan k) as [a Ha]; [lia|].
  destruct (zs_at pc Hspan (S k)) as [b Hb]; [lia|]. exists a, b. split; [done|]. split; [done|].
  by apply (contains_range pc Hspan t k s p a b).
Qed.
Theorem poly_contains_sections p : ∃ b, poly_contains t pc p = Some b ∧ (b = true ↔ in_some_section t pc p).
Proof.
  destruct (poly_kernel_answer false p) as (r & E & Hr). unfold poly_contains. rewrite E. cbn [mbind option_bind].
  rewrite (surjective_pairing r). exists (negb r.2). split; [done|].
  destruct Hr as [Hn|k s Hs Hn|k s s' b Hs Hs' Hb Hz Hn].
  - split; [done|]. intros (k & s & Hs & Hc). destruct (Hn k s Hs). by apply (contains_in_range k s).
  - split; [intros H; by exists k, s|]. intros (k' & s' & Hs' & Hc).
    destruct (decide (k' = k)) as [->|Hne]; [rewrite Hs in Hs'; by injection Hs' as <-|].
    destruct (Hn k' s' Hs' Hne). by apply (contains_in_range k' s').
  - assert (Hse : negb (seam (cone_kernel t false (sec_solid s) (shifted s p)) (cone_kernel t false (sec_solid s') (shifted s' p))).2
       = cone_contains t (sec_solid s) (shifted s p) || cone_contains t (sec_solid s') (shifted s' p)).
    { unfold cone_contains, seam. rewrite !cone_kernel_false_in. by destruct ((cone_kernel t false (sec_solid s) (shifted s p)).2), ((cone_kernel t false (sec_solid s') (shifted s' p)).2). }
    rewrite Hse, orb_true_iff. split; [intros [H'|H']; [by exists k, s|by exists (S k), s']|].
    intros (j & s'' & Hs'' & Hc''). destruct (decide (j = k)) as [->|Hjk]; [left; rewrite Hs in Hs''; by injection Hs'' as ->|].
    destruct (decide (j = S k)) as [->|Hjk']; [right; rewrite Hs' in Hs''; by injection Hs'' as ->|].
    destruct (Hn j s'' Hs'' Hjk Hjk'). by apply (contains_in_range j s'').
Qed.
End contains.
