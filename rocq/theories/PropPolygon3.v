(** C49, continued: Contains and SafetySqr of any polygon, convex or not, crossing itself or not. *)
From Coq Require Import Reals Lra Lia Bool ZArith Psatz.
From stdpp Require Import base list list_numbers option numbers tactics.
From Verif Require Import Real3 BoxModel AABBModel PlanesModel PlanesProofs PolygonModel PolygonSpec PolygonProofs PolygonProofs2 PolygonProofs3 PolygonProofs4 PropPolygon PropPolygon2.
Import stdpp.list.
Local Open Scope R_scope.

Lemma way_dist p q t : 0 <= t <= 1 → dist2 p (way p q t) <= dist2 p q.
Proof.
  intros Ht. apply sqr_le_le; [apply dist2_nonneg|]. rewrite !dist2_sqr. unfold way. cbn [fst snd].
  replace (fst p - (fst p + t * (fst q - fst p))) with (t * (fst p - fst q)) by ring. replace (snd p - (snd p + t * (snd q - snd p))) with (t * (snd p - snd q)) by ring.
  assert (S1 := Rle_0_sqr (fst p - fst q)). assert (S2 := Rle_0_sqr (snd p - snd q)). unfold Rsqr in *. set (A := (fst p - fst q) * (fst p - fst q)) in *. set (B := (snd p - snd q) * (snd p - snd q)) in *.
  replace (t * (fst p - fst q) * (t * (fst p - fst q)) + t * (snd p - snd q) * (t * (snd p - snd q))) with (t * t * (A + B)) by (unfold A, B; ring).
  assert (t * t <= 1) by nra. assert (t * t * (A + B) <= 1 * (A + B)) by (apply Rmult_le_compat_r; lra). lra.
Qed.
(** No border within a distance: the parity is the same. *)
Lemma odd_near pts p q c : (∀ x, border pts x → c <= dist2 p x) → dist2 p q < c → odd_many (meets p) (sides pts) ↔ odd_many (meets q) (sides pts).
Proof.
  intros H Hq. rewrite <- !odd_meetsb. rewrite (parity_way pts p q); [done|]. intros t Ht Hb. specialize (H _ Hb). pose proof (way_dist p q t Ht). lra.
Qed.

Section Polygons.
Variables (kvs : nat) (inf : R) (pts : list p2) (P : polygon).
Hypothesis Hn : (Z.of_nat (length pts) < 2 ^ 62)%Z.
Hypothesis Hi : pg_init kvs inf pts = Some P.
Hypothesis Hl : level_or kAbsorb pts.
(** Contains gives one answer to all points of a way that does not touch the border. *)
Theorem C49_component px py qx qy : (∀ t, 0 <= t <= 1 → ¬ border pts (way (px, py) (qx, qy) t)) → contains P px py = contains P qx qy.
Proof using Hn Hi Hl.
  intros H. apply eq_true_iff_eq. rewrite !(C49_contains kvs inf pts Hn P Hi) by done. rewrite <- !odd_meetsb. by rewrite (parity_way pts _ _ H).
Qed.
(** Points closer than the square root of SafetySqr get the same answer from Contains. *)
Theorem C49_safety_contains px py qx qy r s : (0 < kvs)%nat → proper_sides pts → (∃ q, border pts q ∧ dist2 (px, py) q < 10 ^ 15) →
  safety_sqr P kvs px py = Some (r, s) → dist2 (px, py) (qx, qy) * dist2 (px, py) (qx, qy) < r → contains P px py = contains P qx qy.
Proof using Hn Hi Hl.
  intros Hk Hp Hb Hs Hd. destruct (C49_safety_sqr kvs inf pts Hn P Hi px py Hk Hp Hb) as (r' & s' & e & E & _ & _ & Hr & _). rewrite Hs in E. injection E as -> ->.
  pose proof (dist2_nonneg (px, py) (qx, qy)) as N. destruct Hr as [(d & Hd1 & Hd2 & [Hd3 _] & _)|[-> _]]; [|assert (0 <= dist2 (px, py) (qx, qy) * dist2 (px, py) (qx, qy)) by apply Rle_0_sqr; lra].
  apply eq_true_iff_eq. rewrite !(C49_contains kvs inf pts Hn P Hi) by done. apply (odd_near pts _ _ d); [done|]. pose proof kTolerance_pos. apply Rnot_le_lt. intros Hx. nra.
Qed.
(** Contains answers true only inside of the extent. *)
Theorem C49_contains_extent px py : (∀ v, In v pts → Rabs (fst v) < inf ∧ Rabs (snd v) < inf) → contains P px py = true →
  pg_minx P <= px < pg_maxx P ∧ pg_miny P <= py < pg_maxy P.
Proof using Hn Hi Hl.
  intros Hb H. apply (C49_contains kvs inf pts Hn P Hi) in H; [|done]. destruct (C49_extent kvs inf pts Hn P Hi Hb) as [Ex _].
  destruct (odd_extent pts _ H) as ((a & Ha & A) & (b & Hb' & B) & (c & Hc & C) & (d & Hd & D)). cbn [fst snd] in *.
  destruct (Ex a Ha), (Ex b Hb'), (Ex c Hc), (Ex d Hd). lra.
Qed.
End Polygons.
Print Assumptions C49_component.
Print Assumptions C49_safety_contains.
Print Assumptions C49_contains_extent.

(** An angle: its corner at (1, 1) points inwards. *)
Definition ell : list p2 := [(0, 0); (0, 2); (1, 2); (1, 1); (2, 1); (2, 0)].
Ltac ell_cases H := cbn [sides chain app ell] in H; destruct H as [H|[H|[H|[H|[H|[H|[]]]]]]]; injection H as <- <-.
Lemma ell_level : level_or kAbsorb ell.
Proof.
  assert (K : kAbsorb <= 1) by (unfold kAbsorb; lra). intros a b Hs. unfold zero_or. ell_cases Hs; cbn [fst snd].
  all: first [left; lra|right; rewrite Rabs_right; lra|right; rewrite Rabs_left; lra].
Qed.
Lemma ell_proper : proper_sides ell.
Proof. intros a b Hs. ell_cases Hs; apart. Qed.
Lemma ell_clockwise : clockwise ell = ell.
Proof. apply shoelace_clockwise. unfold shoelace. cbn. lra. Qed.
Lemma ell_concave kvs inf P : pg_init kvs inf ell = Some P → pg_convex P = false.
Proof.
  intros HP. destruct (init_some kvs inf ell) as (t & _ & E'); [done|cbn; lia|]. rewrite ell_clockwise, HP in E'. apply Some_inj in E'. rewrite E'. clear E' HP P. cbn [pg_convex].
  unfold calc_convexity, ell. cbn [zip zip_with nexts app foldl]. unfold turn_sign. cbn [fst snd].
  repeat match goal with |- context [rltb ?a ?b] => first [replace (rltb a b) with true by (symmetry; apply rltb_true; lra)|replace (rltb a b) with false by (symmetry; apply rltb_false; lra)] end. done.
Qed.
Lemma ell_odd p : odd_many (meets p) (sides ell) ↔ (0 <= fst p < 2 ∧ 0 <= snd p < 1) ∨ (0 <= fst p < 1 ∧ 1 <= snd p < 2).
Proof.
  assert (M : ∀ a b, fst a = fst b → meets p (a, b) ↔ (snd a <= snd p < snd b ∨ snd b <= snd p < snd a) ∧ fst p < fst a).
  { intros a b E. rewrite meets_crossx. unfold crossx. rewrite E. replace (fst b - fst b) with 0 by ring. by rewrite Rmult_0_r, Rplus_0_r. }
  assert (F : ∀ a b, snd a = snd b → meets p (a, b) ↔ False). { intros a b E. rewrite meets_crossx, E. lra. }
  cbn [sides chain app ell odd_many]. rewrite (M (0, 0)), (F (0, 2)), (M (1, 2)), (F (1, 1)), (M (2, 1)), (F (2, 0)) by done. cbn [fst snd].
  destruct (Rle_dec 0 (fst p)), (Rlt_dec (fst p) 1), (Rlt_dec (fst p) 2), (Rle_dec 0 (snd p)), (Rlt_dec (snd p) 1), (Rlt_dec (snd p) 2); lra.
Qed.
(** Hypotheses are met: in the angle (1/2, 3/2) and (3/2, 1/2) are inside and (3/2, 3/2) in its hull is not; the way between
    the first two over (1/2, 1/2) avoids the border. *)
Example C49_ell : level_or kAbsorb ell ∧ proper_sides ell ∧ odd_many (meets (/ 2, 3 / 2)) (sides ell) ∧ odd_many (meets (3 / 2, / 2)) (sides ell) ∧
  ¬ odd_many (meets (3 / 2, 3 / 2)) (sides ell) ∧ hull ell (3 / 2, 3 / 2) ∧ ∀ t, 0 <= t <= 1 → ¬ border ell (way (/ 2, / 2) (/ 2, 3 / 2) t).
Proof.
  split; [apply ell_level|]. split; [apply ell_proper|]. rewrite !ell_odd. cbn [fst snd]. split; [lra|]. split; [lra|]. split; [lra|]. split.
  - replace (3 / 2, 3 / 2) with (way (1, 2) (2, 1) (/ 2)) by (apply p2_eq; cbn; lra). apply hull_way; [apply hull_corner; cbn; tauto..|lra].
  - intros t Ht (a & b & Hs & u & Hu & E). unfold way in E. cbn [fst snd] in E. assert (E1 := f_equal fst E). assert (E2 := f_equal snd E). cbn [fst snd] in E1, E2. clear E.
    ell_cases Hs; cbn [fst snd] in E1, E2; lra.
Qed.
