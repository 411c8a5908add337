(** C49, continued: polygons meeting the hypotheses of PropPolygon.v, and statements that do not hold. *)
From Coq Require Import Reals Lra Lia Bool ZArith Psatz.
From stdpp Require Import base list list_numbers option numbers tactics.
From Verif Require Import Real3 BoxModel AABBModel PlanesModel PlanesProofs PolygonModel PolygonSpec PolygonProofs PolygonProofs2 PolygonProofs3 PropPolygon.
Import stdpp.list.
Local Open Scope R_scope.

Lemma dist2_is p q d : 0 <= d → (fst p - fst q) * (fst p - fst q) + (snd p - snd q) * (snd p - snd q) = d * d → dist2 p q = d.
Proof. intros Hd E. rewrite dist2_sqrt, E. by apply R_sqrt.sqrt_square. Qed.
Lemma ne_fst (p q : p2) : fst p ≠ fst q → p ≠ q.
Proof. by intros H ->. Qed.
Lemma ne_snd (p q : p2) : snd p ≠ snd q → p ≠ q.
Proof. by intros H ->. Qed.
Ltac apart := first [apply ne_fst; cbn; lra | apply ne_snd; cbn; lra].
(** Three corners that turn to the right are a convex polygon. *)
Lemma cw3 a b c : cross2 a b c < 0 → convex_cw [a; b; c].
Proof.
  intros H. assert (a ≠ b) as Hab by (intros ->; unfold cross2 in H; lra). assert (b ≠ c) as Hbc by (intros ->; rewrite cross2_r in H; lra).
  assert (a ≠ c) as Hac by (intros ->; rewrite cross2_l in H; lra). split; [cbn; lia|]. split.
  - apply list_nodup. repeat (apply NoDup_cons; split; [rewrite ?elem_of_cons, ?elem_of_nil; naive_solver|]). apply NoDup_nil_2.
  - intros u v w Hs Hw N1 N2. cbn [sides chain app] in Hs. destruct Hs as [E|[E|[E|[]]]]; injection E as <- <-; cbn in Hw; destruct Hw as [<-|[<-|[<-|[]]]]; try done.
    + by rewrite <- cross2_cyc.
    + by rewrite cross2_cyc.
Qed.

(** A triangle with sides 3, 4 and 5. *)
Definition tri : list p2 := [(0, 0); (0, 4); (3, 0)].
Ltac side_cases H := cbn [sides chain app] in H; destruct H as [H|[H|[H|[]]]]; injection H as <- <-.
Lemma tri_cw : convex_cw tri.
Proof. apply cw3. unfold cross2. cbn. lra. Qed.
Lemma tri_len : dist2 (0, 0) (0, 4) = 4 ∧ dist2 (0, 4) (3, 0) = 5 ∧ dist2 (3, 0) (0, 0) = 3.
Proof. repeat split; apply dist2_is; cbn; lra. Qed.
Lemma tri_tidy : tidy kTolerance tri.
Proof.
  destruct tri_len as (L1 & L2 & L3). intros a b Hs. unfold zero_or, kTolerance. side_cases Hs; rewrite ?L1, ?L2, ?L3; unfold cross2; cbn [fst snd].
  - split; [left; lra|]. split; [right; rewrite Rabs_right; lra|left; lra].
  - split; [right; rewrite Rabs_right; lra|]. split; [right; rewrite Rabs_left; lra|right; rewrite Rabs_left; lra].
  - split; [right; rewrite Rabs_left; lra|]. split; left; lra.
Qed.
Lemma tri_level : level_or kAbsorb tri.
Proof.
  assert (K : kAbsorb <= 1) by (unfold kAbsorb; lra). intros a b Hs. unfold zero_or. side_cases Hs; cbn [fst snd].
  - right. rewrite Rabs_right; lra.
  - right. rewrite Rabs_left; lra.
  - left. lra.
Qed.
(** Hypotheses of the theorems are met: points inside, outside and on the border. *)
Example C49_triangle : (convex_cw tri ∧ tidy kTolerance tri ∧ level_or kAbsorb tri ∧ proper_sides tri) ∧
  inner tri (1, 1) ∧ ¬ hull tri (3, 3) ∧ border tri (0, 1) ∧ dist2 (3, 3) (3, 0) < 10 ^ 15 ∧ shoelace tri = - 12.
Proof.
  split; [split; [apply tri_cw|split; [apply tri_tidy|split; [apply tri_level|apply convex_proper, tri_cw]]]|]. split; [|split; [|split; [|split]]].
  - apply inner_iff; [apply tri_cw|]. intros a b Hs. side_cases Hs; unfold cross2; cbn [fst snd]; lra.
  - rewrite hull_iff by apply tri_cw. intros H. specialize (H (0, 4) (3, 0)). assert (cross2 (0, 4) (3, 0) (3, 3) <= 0) as Hx; [apply H; cbn; auto|]. unfold cross2 in Hx. cbn in Hx. lra.
  - exists (0, 0), (0, 4). split; [by left|]. exists (/ 4). split; [lra|]. apply p2_eq; cbn; lra.
  - rewrite (dist2_is (3, 3) (3, 0) 3); [lra|lra|cbn; lra].
  - unfold shoelace. cbn. lra.
Qed.
(** The same triangle given counter-clockwise. *)
Example C49_triangle_ccw : convex_ccw [(0, 0); (3, 0); (0, 4)].
Proof.
  split; [cbn; lia|]. split.
  - apply list_nodup. repeat (apply NoDup_cons; split; [rewrite ?elem_of_cons, ?elem_of_nil; intros Hx; repeat destruct Hx as [Hx|Hx]; try done; injection Hx; intros; lra|]). apply NoDup_nil_2.
  - intros u v w Hs Hw N1 N2. side_cases Hs; cbn in Hw; destruct Hw as [<-|[<-|[<-|[]]]]; try done; unfold cross2; cbn; lra.
Qed.

(** The template of InsideConvex never answers kInside: the second assignment covers the first. *)
Theorem C49_inside_template_refuted inf P px py : inside_convex_t inf P px py ≠ kInside.
Proof. unfold inside_convex_t. cbv zeta. pose proof kTolerance_pos. destruct (rltb_spec (far_seg inf P px py) kTolerance); [done|]. destruct (rltb_spec (far_seg inf P px py) (- kTolerance)); [lra|done]. Qed.

Lemma tri_stored kvs inf P : pg_init kvs inf tri = Some P → pg_edges P = mk_edges tri.
Proof. intros H. rewrite (edges_eq kvs inf tri) by (done || (cbn; lia)). f_equal. apply cw_clockwise, tri_cw. Qed.
Lemma tri_edges : mk_edges tri = [mk_edge (0, 0) (3, 0); mk_edge (0, 4) (0, 0); mk_edge (3, 0) (0, 4)].
Proof. done. Qed.
(** The template of SafetyConvex turns the sign in every round: for a point of the triangle at 1/10 from a side it answers 1. *)
Theorem C49_safety_template_refuted kvs inf P : 2 < inf → pg_init kvs inf tri = Some P →
  inner tri (/ 10, 1) ∧ border tri (0, 1) ∧ dist2 (/ 10, 1) (0, 1) = / 10 ∧
  safety_convex_t inf P true (/ 10) 1 = 1 ∧ safety_convex inf P true (/ 10) 1 = / 10.
Proof.
  intros Hi HP. assert (E := tri_stored _ _ _ HP). pose proof kTolerance_pos. assert (kTolerance < inf) as Ht by (unfold kTolerance; lra).
  destruct tri_len as (L1 & L2 & L3).
  assert (D1 : dseg (mk_edge (0, 0) (3, 0)) (/ 10) 1 = -1) by (rewrite (edge_dseg tri tri_cw tri_tidy) by (cbn; auto); rewrite L3; unfold cross2; cbn; lra).
  assert (D2 : dseg (mk_edge (0, 4) (0, 0)) (/ 10) 1 = - / 10) by (rewrite (edge_dseg tri tri_cw tri_tidy) by (cbn; auto); rewrite L1; unfold cross2; cbn; lra).
  assert (D3 : dseg (mk_edge (3, 0) (0, 4)) (/ 10) 1 = - 172 / 100) by (rewrite (edge_dseg tri tri_cw tri_tidy) by (cbn; auto); rewrite L2; unfold cross2; cbn; lra).
  split; [|split; [|split; [|split]]].
  - apply inner_iff; [apply tri_cw|]. intros a b Hs. side_cases Hs; unfold cross2; cbn [fst snd]; lra.
  - exists (0, 0), (0, 4). split; [by left|]. exists (/ 4). split; [lra|]. apply p2_eq; cbn; lra.
  - apply dist2_is; [lra|]. cbn. lra.
  - unfold safety_convex_t. rewrite E, tri_edges. cbn [foldl]. rewrite D1, D2, D3.
    destruct (rgtb_spec (-1) (- inf)); [|lra]. destruct (rgtb_spec (- / 10) (- -1)); [lra|]. destruct (rgtb_spec (- 172 / 100) (- - -1)); [lra|]. lra.
  - unfold safety_convex, max_seg. rewrite E, tri_edges. cbn [foldl]. rewrite D1, D2, D3. rewrite (Rmax_left (-1)) by lra. rewrite (Rmax_left (- / 10)) by lra. rewrite Rmax_right by lra. lra.
Qed.

(** Normals with a component below 1e-9 are bent: a point inside is denied by ContainsConvex. *)
Definition wide : list p2 := [(0, 0); (10 ^ 20 - 1, 2 * 10 ^ 10); (10 ^ 20 - 1, 0)].
Lemma wide_cw : convex_cw wide.
Proof. apply cw3. unfold cross2. cbn [fst snd]. lra. Qed.
Theorem C49_untidy_refuted kvs inf P : 0 < inf → pg_init kvs inf wide = Some P →
  convex_cw wide ∧ inner wide (10 ^ 20 - 2, 10 ^ 10) ∧ contains_convex inf P (10 ^ 20 - 2) (10 ^ 10) = false.
Proof.
  intros Hi HP. split; [apply wide_cw|]. split.
  - apply inner_iff; [apply wide_cw|]. intros a b Hs. side_cases Hs; unfold cross2; cbn [fst snd]; lra.
  - assert (E : pg_edges P = mk_edges wide) by (rewrite (edges_eq kvs inf wide) by (done || (cbn; lia)); f_equal; apply cw_clockwise, wide_cw).
    unfold contains_convex. destruct (rltb_spec (max_seg inf P (10 ^ 20 - 2) (10 ^ 10)) 0) as [Hx|]; [exfalso|done].
    destruct (fold_max_spec (λ e, dseg e (10 ^ 20 - 2) (10 ^ 10)) (pg_edges P) (- inf)) as (_ & H2 & _). fold (max_seg inf P (10 ^ 20 - 2) (10 ^ 10)) in H2.
    specialize (H2 (mk_edge (10 ^ 20 - 1, 2 * 10 ^ 10) (0, 0))). rewrite E in H2. specialize (H2 ltac:(apply mk_edges_in; exists (0, 0), (10 ^ 20 - 1, 2 * 10 ^ 10); split; [by left|done])).
    assert (D : dseg (mk_edge (10 ^ 20 - 1, 2 * 10 ^ 10) (0, 0)) (10 ^ 20 - 2) (10 ^ 10) = (10 ^ 20 - 1) / (10 ^ 20 + 1) * 10 ^ 10).
    { unfold dseg, mk_edge. cbn [e_a e_b e_d].
      assert (Sq : R_sqrt.sqrt (- (0 - 2 * 10 ^ 10) * - (0 - 2 * 10 ^ 10) + (0 - (10 ^ 20 - 1)) * (0 - (10 ^ 20 - 1))) = 10 ^ 20 + 1).
      { replace (- (0 - 2 * 10 ^ 10) * - (0 - 2 * 10 ^ 10) + (0 - (10 ^ 20 - 1)) * (0 - (10 ^ 20 - 1))) with ((10 ^ 20 + 1) * (10 ^ 20 + 1)) by lra. apply R_sqrt.sqrt_square. lra. }
      rewrite Sq. unfold fix1, kTolerance.
      destruct (rltb_spec (Rabs (- (0 - 2 * 10 ^ 10) * (1 / (10 ^ 20 + 1)))) (/ 1000000000)) as [_|Hf]; [|exfalso; apply Hf; rewrite Rabs_pos_eq; lra].
      destruct (rltb_spec (Rabs ((0 - (10 ^ 20 - 1)) * (1 / (10 ^ 20 + 1)))) (/ 1000000000)) as [Hf|_]; [exfalso; rewrite Rabs_left in Hf; lra|].
      match goal with |- context [rltb (Rabs ?x) _] => assert (Hz : x = 0) by (field; lra); rewrite Hz end. rewrite Rabs_R0. destruct (rltb_spec 0 (/ 1000000000)); [|exfalso; lra]. field. }
    rewrite D in H2. lra.
Qed.

(** Sharp corners: a point at 1/20 from the triangle is called a surface point. *)
Definition sharp : list p2 := [(0, 0); (100000000, 1); (100000000, -1)].
Lemma sharp_cw : convex_cw sharp.
Proof. apply cw3. unfold cross2. cbn [fst snd]. lra. Qed.
Lemma hull_fst pts c : (∀ v, In v pts → c <= fst v) → ∀ p, hull pts p → c <= fst p.
Proof. intros H p. induction 1; [by apply H|]. cbn. nra. Qed.
Lemma far_fst p q c : c <= fst q - fst p → c <= dist2 p q.
Proof. intros H. destruct (Rle_dec c 0); [pose proof (dist2_nonneg p q); lra|]. apply sqr_le_le; [apply dist2_nonneg|]. rewrite dist2_sqr. assert (0 <= (snd p - snd q) * (snd p - snd q)) by apply Rle_0_sqr. set (x := fst p - fst q). assert (c <= - x) by (unfold x; lra). nra. Qed.
Theorem C49_corner_refuted kvs inf P : kTolerance < inf → pg_init kvs inf sharp = Some P →
  convex_cw sharp ∧ tidy kTolerance sharp ∧ (∀ q, hull sharp q → / 20 <= dist2 (- / 20, 0) q) ∧ inside_convex inf P (- / 20) 0 = kSurface.
Proof.
  intros Hi HP. assert (E : pg_edges P = mk_edges sharp) by (rewrite (edges_eq kvs inf sharp) by (done || (cbn; lia)); f_equal; apply cw_clockwise, sharp_cw).
  assert (Lb : ∀ p q, 100000000 <= fst q - fst p → 100000000 <= dist2 p q) by (intros; by apply far_fst).
  assert (Ub : dist2 (0, 0) (100000000, 1) <= 100000000 + 1) by (apply sqr_le_le; [lra|]; rewrite dist2_sqr; cbn [fst snd]; lra).
  assert (L1 : 100000000 <= dist2 (0, 0) (100000000, 1)) by (apply Lb; cbn; lra).
  assert (L2 : dist2 (100000000, 1) (100000000, -1) = 2) by (apply dist2_is; cbn [fst snd]; lra).
  assert (L3 : dist2 (100000000, -1) (0, 0) = dist2 (0, 0) (100000000, 1)) by (rewrite !dist2_sqrt; f_equal; cbn [fst snd]; lra).
  set (l := dist2 (0, 0) (100000000, 1)) in *. assert (Hinv : / (100000000 + 1) <= / l <= / 100000000) by (split; apply Rinv_le_contravar; lra).
  assert (Big : ∀ x, 1 <= Rabs x → / 1000000000 <= Rabs (x / l)).
  { intros x Hx. unfold Rdiv. rewrite Rabs_mult. rewrite (Rabs_pos_eq (/ l)) by lra. nra. }
  assert (T : tidy kTolerance sharp).
  { intros a b Hs. unfold zero_or, kTolerance. side_cases Hs; rewrite ?L2, ?L3; fold l; unfold cross2; cbn [fst snd].
    - split; [right; apply Big; rewrite Rabs_right; lra|]. split; [right; apply Big; rewrite Rabs_right; lra|]. left. unfold Rdiv. lra.
    - split; [left; lra|]. split; right; rewrite Rabs_left; lra.
    - split; [right; apply Big; rewrite Rabs_left; lra|]. split; [right; apply Big; rewrite Rabs_right; lra|]. left. unfold Rdiv. lra. }
  split; [apply sharp_cw|]. split; [done|]. split.
  - intros q Hq. apply far_fst. cbn. assert (0 <= fst q); [|lra]. apply (hull_fst sharp); [|done]. intros v [<-|[<-|[<-|[]]]]; cbn; lra.
  - destruct (max_seg_spec inf sharp sharp_cw T P E (- / 20) 0) as (_ & M1 & M2). unfold inside_convex. set (m := max_seg inf P (- / 20) 0) in *.
    assert (V : 0 < m <= / 10 ^ 9).
    { specialize (M1 (0, 0) (100000000, 1) ltac:(by left)). fold l in M1. unfold cross2 in M1. cbn [fst snd] in M1.
      assert (0 < / 20 * / l) by (apply Rmult_lt_0_compat; lra). unfold Rdiv in M1. split; [lra|].
      destruct M2 as [M2|(a & b & Hs & M2)]; [pose proof kTolerance_pos; lra|]. rewrite M2. side_cases Hs; rewrite ?L2, ?L3; fold l; unfold cross2, Rdiv; cbn [fst snd]; lra. }
    unfold kTolerance. destruct (rgtb_spec m (/ 1000000000)); [lra|]. destruct (rltb_spec m (- / 1000000000)); [lra|done].
Qed.

Lemma shoelace_clockwise pts : shoelace pts < 0 → clockwise pts = pts.
Proof. intros H. destruct pts as [|a r]; [done|]. unfold clockwise. destruct (rgtb_spec (shoelace (a :: r)) 0); [lra|done]. Qed.
(** CalcConvexity counts turns only: the five-pointed star is called convex, although Contains denies its centre. *)
Definition star : list p2 := [(0, 4); (2, -4); (-4, 1); (4, 1); (-2, -4)].
Theorem C49_star_refuted kvs inf P : pg_init kvs inf star = Some P →
  pg_convex P = true ∧ ¬ convex_cw star ∧ ¬ convex_ccw star ∧ hull star (0, 0) ∧ ¬ border star (0, 0) ∧ contains P 0 0 = false.
Proof.
  intros HP.
  assert (Sh : shoelace star < 0) by (unfold shoelace; cbn; lra).
  assert (Cs : clockwise star = star).
  { by apply shoelace_clockwise. }
  destruct (init_some kvs inf star) as (t & _ & E'); [done|cbn; lia|]. rewrite Cs, HP in E'. apply Some_inj in E'. rewrite E'. clear E' HP P. cbn [pg_convex].
  split; [|split; [|split; [|split; [|split]]]].
  - unfold calc_convexity, star. cbn [zip zip_with nexts app foldl]. unfold turn_sign. cbn [fst snd].
    repeat match goal with |- context [rltb ?x 0] => destruct (rltb_spec x 0); [|lra] end. done.
  - intros (_ & _ & C). specialize (C (0, 4) (2, -4) (4, 1) ltac:(by left) ltac:(cbn; auto) ltac:(apart) ltac:(apart)). unfold cross2 in C. cbn in C. lra.
  - intros (_ & _ & C). specialize (C (0, 4) (2, -4) (-4, 1) ltac:(by left) ltac:(cbn; auto) ltac:(apart) ltac:(apart)). unfold cross2 in C. cbn in C. lra.
  - assert (H1 : hull star (0, 1)).
    { replace (0, 1) with (way (-4, 1) (4, 1) (/ 2)) by (apply p2_eq; cbn; lra). apply hull_way; [constructor; cbn; auto|constructor; cbn; auto|lra]. }
    assert (H2 : hull star (0, -4)).
    { replace (0, -4) with (way (2, -4) (-2, -4) (/ 2)) by (apply p2_eq; cbn; lra). apply hull_way; [constructor; cbn; auto|constructor; cbn; auto 6|lra]. }
    replace (0, 0) with (way (0, 1) (0, -4) (/ 5)) by (apply p2_eq; cbn; lra). by apply hull_way; [..|lra].
  - intros (a & b & Hs & (u & Hu & E)). injection E as E1 E2. cbn [sides star chain app] in Hs. destruct Hs as [H|[H|[H|[H|[H|[]]]]]]; injection H as <- <-; cbn in E1, E2; lra.
  - unfold contains, star. cbn [pg_edges mk_edges prevs last removelast zip_with foldl]. unfold flips, mk_edge. cbn [e_x e_y e_yj e_slope].
    assert (N : ∀ x, 1 <= Rabs x → nz x = x) by (intros x Hx; apply nz_large; unfold kAbsorb; lra).
    repeat match goal with |- context [nz ?x] => rewrite (N x) by (first [rewrite Rabs_right by lra; lra|rewrite Rabs_left by lra; lra]) || (let z := fresh in set (z := nz x)) end.
    repeat match goal with |- context [rgtb ?x ?y] => destruct (rgtb_spec x y); try (exfalso; lra) end. cbn [xorb andb].
    repeat match goal with |- context [rltb ?x ?y] => destruct (rltb_spec x y); try (exfalso; lra) end. done.
Qed.
(** A corner on a straight line makes it answer "not convex". *)
Theorem C49_straight_corner_refuted kvs inf P : pg_init kvs inf [(0, 0); (0, 1); (0, 2); (2, 2); (2, 0)] = Some P → pg_convex P = false.
Proof.
  set (q := [(0, 0); (0, 1); (0, 2); (2, 2); (2, 0)] : list p2). intros HP.
  assert (Cs : clockwise q = q).
  { apply shoelace_clockwise. unfold shoelace. cbn. lra. }
  destruct (init_some kvs inf q) as (t & _ & E'); [done|cbn; lia|]. rewrite Cs, HP in E'. apply Some_inj in E'. rewrite E'. clear E' HP P. cbn [pg_convex].
  unfold calc_convexity, q. cbn [zip zip_with nexts app foldl]. unfold turn_sign. cbn [fst snd].
  repeat match goal with |- context [rltb ?x 0] => destruct (rltb_spec x 0); try (exfalso; lra) end. done.
Qed.

(** A copied polygon has whatever was in memory behind its last vertex: SafetySqr with four lanes reads it, here giving 0 and
    the index of no edge for a point at distance 6. *)
Theorem C49_copy_refuted inf P : pg_init 4 inf tri = Some P → ∃ junk,
  safety_sqr (pg_copy junk P) 4 9 0 = Some (0, 3%Z) ∧ length (pg_edges (pg_copy junk P)) = 3%nat ∧ ∀ q, hull tri q → 6 <= dist2 (9, 0) q.
Proof.
  intros HP. assert (E := tri_stored _ _ _ HP).
  assert (Tl : ∃ t0 t, pg_tail P = t0 :: t).
  { destruct (init_some 4 inf tri) as (t & Et & E'); [done|cbn; lia|]. rewrite HP in E'. injection E' as ->. cbn [pg_tail].
    rewrite (cw_clockwise _ tri_cw) in Et. destruct (mk_tail_some 4 (mk_edges tri)) as (t' & Et' & Lt & _); [done|]. rewrite Et in Et'. injection Et' as <-.
    destruct t as [|t0 t]; [cbn in Lt; lia|]. by exists t0, t. }
  destruct Tl as (t0 & t & Tl). exists (replicate 9 (9, 0, 0)). split; [|split].
  - unfold safety_sqr, pg_copy. cbn [pg_edges pg_tail]. rewrite E, Tl, tri_edges. cbn [zip_with replicate length app].
    change ((3 + 4 - 1) / 4)%nat with 1%nat. cbn [safety_blocks length Nat.ltb Nat.leb take safety_lanes].
    assert (D : ∀ a b, a ≠ b → fst a <= 3 → fst b <= 3 → 36 <= edge_ssq 9 0 (mk_edge b a)).
    { intros a b Hab Ha Hb. destruct (edge_ssq_spec 9 0 a b Hab) as [_ (q & (u & Hu & ->) & <-)]. unfold sq_dist, way. cbn [fst snd].
      assert (fst a + u * (fst b - fst a) <= 3) by nra. set (x := fst a + u * (fst b - fst a)) in *. set (y := snd a + u * (snd b - snd a)). nra. }
    pose proof (D (3, 0) (0, 0) ltac:(apart) ltac:(cbn; lra) ltac:(cbn; lra)) as D1. pose proof (D (0, 0) (0, 4) ltac:(apart) ltac:(cbn; lra) ltac:(cbn; lra)) as D2.
    pose proof (D (0, 4) (3, 0) ltac:(apart) ltac:(cbn; lra) ltac:(cbn; lra)) as D3.
    assert (D4 : edge_ssq 9 0 (with_junk t0 (9, 0, 0)) = 0).
    { unfold edge_ssq, with_junk. cbn [e_x e_y e_xj e_yj]. set (dx := e_xj t0 - 9). set (dy := e_yj t0 - 0).
      replace ((9 - 9) * dx + (0 - 0) * dy) with 0 by ring. assert (0 <= dx * dx + dy * dy) by (apply Rplus_le_le_0_compat; apply Rle_0_sqr).
      destruct (rgtb_spec 0 (dx * dx + dy * dy)); [lra|]. destruct (rgeb_spec 0 0); [|lra]. cbn [negb andb]. lra. }
    rewrite D4. pose proof kTolerance_pos as K. assert (K2 : 0 < kTolerance * kTolerance) by nra.
    assert (P30 : 0 < 10 ^ 30) by lra. generalize dependent (10 ^ 30). intros big P30.
    repeat (match goal with |- context [rltb (edge_ssq ?x ?y ?e) ?s] => destruct (rltb_spec (edge_ssq x y e) s) end; cbn iota beta);
      (match goal with |- context [rltb 0 ?s] => destruct (rltb_spec 0 s) as [_|Hx]; [|exfalso; apply Hx; lra] end); cbn iota beta; rewrite take_0; cbn [safety_lanes]; rewrite Rabs_R0;
      (match goal with |- context [rltb 0 ?s] => destruct (rltb_spec 0 s) as [_|Hx]; [|exfalso; by apply Hx] end); done.
  - cbn [pg_copy pg_edges]. by rewrite E.
  - intros q Hq. rewrite dist2_comm. apply far_fst. cbn. assert (fst q <= 3); [|lra].
    revert q Hq. induction 1 as [v Hv|]; [|cbn; nra]. destruct Hv as [<-|[<-|[<-|[]]]]; cbn; lra.
Qed.

(** OnSegment's tolerance grows when sides get shorter: a point at 1/2000 from a side of length 1e-6 is on it. *)
Theorem C49_short_side_refuted :
  on_segment (mk_edge (/ 10 ^ 6, 0) (0, 0)) 0 (/ 2000) = true ∧ ∀ q, on_side (0, 0) (/ 10 ^ 6, 0) q → / 2000 <= dist2 (0, / 2000) q.
Proof.
  split.
  - unfold on_segment, mk_edge. cbn [e_x e_y e_xj e_yj e_lsq]. destruct (rltb_spec (Rabs ((/ 2000 - 0) * (/ 10 ^ 6 - 0) - (0 - 0) * (0 - 0))) (/ 1000000000)) as [_|Hx].
    + cbn [negb]. unfold kTolerance. apply andb_true_iff. split; [destruct (rgeb_spec ((0 - 0) * (/ 10 ^ 6 - 0) + (/ 2000 - 0) * (0 - 0)) (- / 1000000000)); [done|lra]|].
      destruct (rleb_spec ((0 - 0) * (/ 10 ^ 6 - 0) + (/ 2000 - 0) * (0 - 0)) (/ 1000000000 + ((/ 10 ^ 6 - 0) * (/ 10 ^ 6 - 0) + (0 - 0) * (0 - 0)))); [done|lra].
    + exfalso. apply Hx. rewrite Rabs_pos_eq; lra.
  - intros q (t & Ht & ->). apply sqr_le_le; [apply dist2_nonneg|]. rewrite dist2_sqr. cbn [way fst snd].
    assert (0 <= (0 - (0 + t * (/ 10 ^ 6 - 0))) * (0 - (0 + t * (/ 10 ^ 6 - 0)))) by apply Rle_0_sqr. nra.
Qed.

Print Assumptions C49_inside_template_refuted.
Print Assumptions C49_safety_template_refuted.
Print Assumptions C49_untidy_refuted.
Print Assumptions C49_corner_refuted.
Print Assumptions C49_star_refuted.
Print Assumptions C49_straight_corner_refuted.
Print Assumptions C49_copy_refuted.
Print Assumptions C49_short_side_refuted.
