(** Boolean solids: points, classes, safeties, ray distances, normals, extents. *)
From Coq Require Import Reals Lra Lia.
From stdpp Require Import list option.
From Verif Require Import Real3 AABBModel AABBSpec TransModel TransSpec TransProofs BoxModel BoxSpec BoxProofs ExtentModel ExtentSpec ExtentProofs ShapeModel BoolModel BoolSpec BoolProofs PropBox.
Import stdpp.list.
Local Open Scope R_scope.

(** ** Contains and Inside (VecGeom/volumes/kernel/BooleanUnionImplementation.h:25-79, BooleanIntersectionImplementation.h:26-66,
    BooleanImplementation.h:45-95) *)
Theorem C40_contains : ∀ inf fuel op (l r : placed) (A B : v3 → Prop),
  decides (s_contains (pl_shape l)) A → decides (s_contains (pl_shape r)) B →
  decides (s_contains (bool_shape inf l r fuel op)) (combined op (put (pl_tr l) A) (put (pl_tr r) B)).
Proof. intros inf fuel op l r A B HA HB. cbn [bool_shape s_contains]. apply contains_combine; intros p; [apply HA|apply HB]. Qed.
Print Assumptions C40_contains.
Theorem C40_tree : ∀ inf fuel e, decides (s_contains (solid inf fuel e)) (points e).
Proof. intros. apply solid_points. Qed.
Print Assumptions C40_tree.
(** Inside agrees with Contains: always for intersections, and for the others unless the point is in the tolerance
    of both operands. *)
Theorem C40_inside : ∀ inf fuel op (l r : placed), consistent (pl_shape l) → consistent (pl_shape r) →
  ∀ p, op = kIntersection ∨ s_inside (pl_shape l) (transform (pl_tr l) p) ≠ kSurface ∨ s_inside (pl_shape r) (transform (pl_tr r) p) ≠ kSurface →
  (s_inside (bool_shape inf l r fuel op) p = kInside → s_contains (bool_shape inf l r fuel op) p = true) ∧
  (s_inside (bool_shape inf l r fuel op) p = kOutside → s_contains (bool_shape inf l r fuel op) p = false).
Proof.
  intros inf fuel op l r Cl Cr p Hs. cbn [bool_shape s_contains s_inside]. specialize (Cl (transform (pl_tr l) p)). specialize (Cr (transform (pl_tr r) p)).
  unfold bool_inside, union_inside, inter_inside, sub_inside, bool_contains. unfold pv_inside, pv_contains.
  destruct op, (s_inside (pl_shape l) _), (s_inside (pl_shape r) _), (s_contains (pl_shape l) _), (s_contains (pl_shape r) _); cbn [andb orb negb];
    (split; intros K; try discriminate K; try reflexivity; exfalso; clear K; intuition congruence).
Qed.
Print Assumptions C40_inside.
(** Which points are kInside and which are kOutside; the others are kSurface. *)
Theorem C40_classes : ∀ inf fuel (l r : placed) p,
  let a := s_inside (pl_shape l) (transform (pl_tr l) p) in let b := s_inside (pl_shape r) (transform (pl_tr r) p) in
  let cls op := s_inside (bool_shape inf l r fuel op) p in
  (cls kUnion = kOutside ↔ a = kOutside ∧ b = kOutside) ∧ (a = kInside ∨ b = kInside → cls kUnion = kInside) ∧
  (cls kUnion = kInside → a = kInside ∨ b = kInside ∨ (a = kSurface ∧ b = kSurface)) ∧
  (cls kIntersection = kInside ↔ a = kInside ∧ b = kInside) ∧ (cls kIntersection = kOutside ↔ a = kOutside ∨ b = kOutside) ∧
  (cls kSubtraction = kInside ↔ a = kInside ∧ b = kOutside) ∧
  (cls kSubtraction = kOutside ↔ a = kOutside ∨ b = kInside ∨ (a = kSurface ∧ b = kSurface)).
Proof.
  intros inf fuel l r p a b cls. subst cls. cbn [bool_shape s_inside]. unfold bool_inside, union_inside, inter_inside, sub_inside, pv_inside. fold a b.
  destruct a, b; try (destruct (rltb _ 0)); intuition (discriminate || auto).
Qed.
Print Assumptions C40_classes.
(** At points in the tolerance of both operands they disagree.  Union: the gap between two solids whose normals face
    each other is kInside. *)
Theorem C40_union_gap_refuted : ∃ (l r : shape) (p : v3), consistent l ∧ consistent r ∧
  s_inside (bool_shape 1 (Placed tr_one l) (Placed tr_one r) 1 kUnion) p = kInside ∧ s_contains (bool_shape 1 (Placed tr_one l) (Placed tr_one r) 1 kUnion) p = false.
Proof.
  set (cls := λ (side : R → R) (p : v3), if rltb (Rabs (side (vx p))) kHalfTolerance then kSurface else if rltb (side (vx p)) 0 then kInside else kOutside).
  set (sh := λ (side : R → R) (n : R), Shape (λ p, rltb (side (vx p)) 0) (cls side) (λ _ _ _, None) (λ _ _ _, None) (λ p, side (vx p)) (λ p, - side (vx p)) (λ _, (V3 n 0 0, true)) (vzero, vzero)).
  assert (∀ side n, consistent (sh side n)) as C.
  { intros side n p. cbn. unfold cls. destruct (rltb_spec (Rabs (side (vx p))) kHalfTolerance); [split; discriminate|]. destruct (rltb_spec (side (vx p)) 0); split; done. }
  exists (sh (λ x, x) 1), (sh (λ x, - x) (-1)), vzero. split; [apply C|]. split; [apply C|]. cbn [bool_shape s_inside s_contains bool_inside].
  pose proof kHalfTolerance_pos. assert (∀ side n, side 0 = 0 → pv_inside (Placed tr_one (sh side n)) vzero = kSurface) as S.
  { intros side n E. unfold pv_inside. cbn [pl_tr pl_shape]. rewrite transform_one. cbn. unfold cls. cbn. rewrite E, Rabs_R0. destruct (rltb_spec 0 kHalfTolerance); [done|lra]. }
  split.
  - unfold union_inside. rewrite !S by lra. unfold operand_normal, pv_normal. cbn [pl_tr pl_shape]. rewrite !transform_one. cbn [s_normal sh]. rewrite !inverse_direction_one. cbn.
    match goal with |- context [rltb ?a 0] => destruct (rltb_spec a 0) as [_|K]; [done|unfold vdot in K; cbn in K; lra] end.
  - unfold bool_contains, pv_contains. cbn [pl_tr pl_shape]. rewrite !transform_one. cbn. destruct (rltb_spec 0 0); [lra|]. destruct (rltb_spec (- 0) 0); [lra|done].
Qed.
Print Assumptions C40_union_gap_refuted.
(** Subtraction: what is left of a box next to the box that was cut away is kOutside, not kSurface. *)
Theorem C40_subtraction_touching_refuted : ∃ p, let l := Placed tr_one (box_shape 1 (V3 1 1 1)) in let r := Placed (tr_translation 2 0 0) (box_shape 1 (V3 1 1 1)) in
  s_inside (bool_shape 1 l r 1 kSubtraction) p = kOutside ∧ s_contains (bool_shape 1 l r 1 kSubtraction) p = true.
Proof.
  set (h := kHalfTolerance / 2). pose proof kHalfTolerance_pos as Hh. assert (0 < h < kHalfTolerance ∧ h < 1) as Hh'. { unfold h, kHalfTolerance, kTolerance in *. lra. }
  exists (V3 (1 - h) 0 0). cbv zeta. cbn [bool_shape s_inside s_contains bool_inside]. clearbody h.
  assert (box_outer (V3 1 1 1) (V3 (1 - h) 0 0) = - h) as E1. { unfold box_outer, vmax; cbn. rewrite Rabs_right, Rabs_R0 by lra. unfold Rmax. repeat destruct (Rle_dec _ _); lra. }
  assert (box_outer (V3 1 1 1) (V3 (1 - h - 2) 0 0) = h) as E2. { unfold box_outer, vmax; cbn. rewrite Rabs_left, Rabs_R0 by lra. unfold Rmax. repeat destruct (Rle_dec _ _); lra. }
  assert (∀ x, Rabs x = h → rltb (Rabs x) kHalfTolerance = true) as Q by (intros x ->; apply rltb_true; lra).
  unfold sub_inside, bool_contains, pv_inside, pv_contains. cbn [pl_tr pl_shape box_shape s_inside s_contains]. rewrite transform_one, translate_x. cbn [vx vy vz]. unfold box_inside, box_contains. rewrite E1, E2.
  rewrite !Q by (rewrite ?Rabs_Ropp; apply Rabs_right; lra). split; [done|]. destruct (rltb_spec (- h) 0); [|lra]. destruct (rltb_spec h 0); [lra|done].
Qed.
Print Assumptions C40_subtraction_touching_refuted.
Example C40_example : let e := Node kSubtraction tr_one (Leaf (box_shape 1000 (V3 2 2 2))) (tr_translation 1 0 0) (Leaf (box_shape 1000 (V3 1 1 1))) in
  points e (V3 (-1) 0 0) ∧ ¬ points e (V3 1 0 0) ∧ s_contains (solid 1000 1 e) (V3 (-1) 0 0) = true.
Proof.
  cbv zeta. assert (points (Node kSubtraction tr_one (Leaf (box_shape 1000 (V3 2 2 2))) (tr_translation 1 0 0) (Leaf (box_shape 1000 (V3 1 1 1)))) (V3 (-1) 0 0)) as H.
  { split; unfold put; cbn [points box_shape s_contains].
    - rewrite transform_one. apply C37_classes. unfold interior, in_interior, centred, vneg; cbn. lra.
    - rewrite translate_x. cbn [vx vy vz]. intros K. apply C37_classes in K. destruct K as (K & _). unfold centred, vneg in K; cbn in K. lra. }
  split; [done|]. split; [|by apply C40_tree]. intros [_ K]. apply K. unfold put; cbn [points box_shape s_contains]. rewrite translate_x. cbn [vx vy vz]. apply C37_classes. unfold interior, in_interior, centred, vneg; cbn. lra.
Qed.

(** ** Safeties (BooleanUnionImplementation.h:145-186, BooleanIntersectionImplementation.h:162-194, BooleanImplementation.h:172-196) *)
Theorem C41_safety_in : ∀ inf fuel op (l r : placed) (A B : v3 → Prop),
  decides (s_contains (pl_shape l)) A → decides (s_contains (pl_shape r)) B → ortho (pl_tr l) → ortho (pl_tr r) →
  safe_in (pl_shape l) A → safe_in (pl_shape r) B → safe_out (pl_shape r) B →
  safe_in (bool_shape inf l r fuel op) (combined op (put (pl_tr l) A) (put (pl_tr r) B)).
Proof. intros inf fuel op l r A B HA HB Ol Or Sl Sr So p q Hp Hq. cbn [bool_shape s_safety_in]. by eapply safety_in_ok. Qed.
Print Assumptions C41_safety_in.
(** SafetyToOut: for a left operand that is not moved. *)
Theorem C41_safety_out : ∀ inf fuel op (l r : placed) (A B : v3 → Prop),
  decides (s_contains (pl_shape l)) A → decides (s_contains (pl_shape r)) B → pl_tr l = tr_one → ortho (pl_tr r) →
  safe_out (pl_shape l) A → safe_out (pl_shape r) B → safe_in (pl_shape r) B → (∀ p, B p → s_safety_in (pl_shape r) p <= 0) →
  safe_out (bool_shape inf l r fuel op) (combined op (put (pl_tr l) A) (put (pl_tr r) B)).
Proof.
  intros inf fuel op l r A B HA HB T Or Sl Sr Si Sz. assert (ortho (pl_tr l)) by (rewrite T; apply one_ok). split.
  - intros p q Hp Hq. cbn [bool_shape s_safety_out]. by eapply safety_out_ok.
  - intros p Hp. cbn [bool_shape s_safety_out]. by eapply safety_out_outside.
Qed.
Print Assumptions C41_safety_out.
(** Whole trees. *)
Theorem C41_tree : ∀ inf fuel e, left_unmoved ortho e → leaves_good e → good_safety (solid inf fuel e) (points e).
Proof.
  intros inf fuel e. induction e as [s|op tl l IHl tr r IHr]; [done|]. intros (-> & Hr & Ul & Ur) (Gl & Gr). destruct (IHl Ul Gl) as (L1 & L2 & L3), (IHr Ur Gr) as (R1 & R2 & R3).
  pose proof (solid_points inf fuel l) as Dl. pose proof (solid_points inf fuel r) as Dr. cbn [solid points].
  split; [apply (C41_safety_in inf fuel op (Placed tr_one (solid inf fuel l)) (Placed tr (solid inf fuel r))); try done; apply one_ok|].
  split; [by apply (C41_safety_out inf fuel op (Placed tr_one (solid inf fuel l)) (Placed tr (solid inf fuel r)))|].
  intros p. unfold put. cbn [bool_shape s_safety_in]. unfold bool_safety_in, pv_safety_in, pv_contains. cbn [pl_tr pl_shape].
  destruct op; cbn [combined].
  - intros [H|H]; [eapply Rle_trans; [apply Rmin_l|by apply L3]|eapply Rle_trans; [apply Rmin_r|by apply R3]].
  - intros [H1 H2]. pose proof (proj2 (Dl _) H1) as ->. pose proof (proj2 (Dr _) H2) as ->. cbn. eapply Rle_trans; [apply Rmin_l|by apply L3].
  - intros [H1 H2]. pose proof (proj2 (Dl _) H1) as ->. destruct (s_contains (solid inf fuel r) (transform tr p)) eqn:E; [exfalso; apply H2; by apply Dr|]. cbn. by apply L3.
Qed.
Print Assumptions C41_tree.
(** A left operand that is moved: its SafetyToOut is asked in the wrong frame, and the answer is too large. *)
Theorem C41_left_placed_refuted : ∃ inf fuel (l r : placed) p q, ortho (pl_tr l) ∧ pl_tr r = tr_one ∧
  good_safety (pl_shape l) (λ p, s_contains (pl_shape l) p = true) ∧ good_safety (pl_shape r) (λ p, s_contains (pl_shape r) p = true) ∧
  s_contains (bool_shape inf l r fuel kIntersection) p = true ∧ s_contains (bool_shape inf l r fuel kIntersection) q = false ∧
  vdist p q < s_safety_out (bool_shape inf l r fuel kIntersection) p.
Proof.
  exists 1000, 1%nat, (Placed (tr_translation (1 / 2) 0 0) (box_shape 1000 (V3 1 1 1))), (Placed tr_one (box_shape 1000 (V3 9 9 9))), (V3 (-4 / 10) 0 0), (V3 (-6 / 10) 0 0).
  cbn [pl_tr pl_shape]. split; [apply translation_ok|]. split; [done|].
  assert (∀ b, good_safety (box_shape 1000 b) (λ p, s_contains (box_shape 1000 b) p = true)) as G.
  { intros b. cbn [box_shape s_contains]. split; [|split; [split|]].
    - intros p q Hp Hq. apply C37_classes, outer_interior in Hq. apply C37_safeties. apply outer_closed. lra.
    - intros p q Hp Hq. apply C37_safeties. intros K. apply Hq. by apply C37_classes.
    - intros p Hp. cbn. rewrite safety_out_neg. assert (~ box_outer b p < 0). { rewrite outer_interior. intros K. apply Hp. by apply C37_classes. } lra.
    - intros p Hp. cbn. unfold box_safety_in. apply C37_classes, outer_interior in Hp. lra. }
  split; [apply G|]. split; [apply G|]. cbn [bool_shape s_contains s_safety_out bool_contains bool_safety_out]. unfold pv_contains, pv_safety_out. cbn [pl_tr pl_shape]. rewrite !translate_x, !transform_one. cbn [vx vy vz box_shape s_contains s_safety_out].
  split; [|split].
  - rewrite andb_true_iff. split; apply C37_classes; unfold interior, in_interior, centred, vneg; cbn; lra.
  - apply andb_false_iff. left. apply not_true_is_false. intros K. apply C37_classes in K. destruct K as (K & _). unfold centred, vneg in K; cbn in K. lra.
  - assert (vdist (V3 (-4 / 10) 0 0) (V3 (-6 / 10) 0 0) = 2 / 10) as ->. { unfold vdist, vmag. replace (vdot _ _) with (2 / 10 * (2 / 10)) by (unfold vdot; cbn; field). apply sqrt_square. lra. }
    assert (6 / 10 <= box_safety_out (V3 1 1 1) (V3 (-4 / 10) 0 0)) as K1. { unfold box_safety_out, vmin; cbn. rewrite Rabs_left, Rabs_R0 by lra. unfold Rmin; repeat destruct (Rle_dec _ _); lra. }
    assert (6 / 10 <= box_safety_out (V3 9 9 9) (V3 (-4 / 10) 0 0)) as K2. { unfold box_safety_out, vmin; cbn. rewrite Rabs_left, Rabs_R0 by lra. unfold Rmin; repeat destruct (Rle_dec _ _); lra. }
    pose proof (Rmin_glb _ _ _ K1 K2). set (m := Rmin _ _) in *. destruct (rltb_spec m 0); lra.
Qed.
Print Assumptions C41_left_placed_refuted.
Example C41_example : let e := Node kSubtraction tr_one (Leaf (slab 1000 3)) (tr_translation 1 0 0) (Leaf (slab 1000 1)) in
  left_unmoved ortho e ∧ s_safety_out (solid 1000 1 e) (V3 (-1) 0 0) = 1 ∧ s_safety_in (solid 1000 1 e) (V3 1 0 0) = 1.
Proof.
  cbv zeta. split; [split; [done|]; split; [apply translation_ok|done]|]. cbn [solid bool_shape s_safety_in s_safety_out bool_safety_out bool_safety_in]. unfold pv_safety_out, pv_safety_in, pv_contains. cbn [pl_tr pl_shape].
  rewrite !transform_one, !translate_x. cbn [slab s_safety_in s_safety_out s_contains vx]. split.
  - rewrite (Rabs_left (-1)), (Rabs_left (-1 - 1)) by lra. rewrite Rmin_right; lra.
  - repeat match goal with |- context [rleb ?a ?b] => destruct (rleb_spec a b); [|lra] | |- context [rltb ?a ?b] => destruct (rltb_spec a b); [|lra] end. cbn [andb]. replace (1 - 1) with 0 by lra. rewrite Rabs_R0. lra.
Qed.

(** ** Ray distances (BooleanUnionImplementation.h:81-143, BooleanIntersectionImplementation.h:68-160, BooleanImplementation.h:97-170) *)
Section Distances.
Context (inf : R) (Hinf : 10 ^ 20 < inf) (l r : placed) (A B : v3 → Prop).
Context (HA : decides (s_contains (pl_shape l)) A) (HB : decides (s_contains (pl_shape r)) B).
(** First crossings, exactly. *)
Theorem C42_union_to_in : ∀ p d smax fuel, placed_in_ok inf l A p d smax → placed_in_ok inf r B p d smax →
  ¬ put (pl_tr l) A p → ¬ put (pl_tr r) B p →
  ∃ t, s_to_in (bool_shape inf l r fuel kUnion) p d smax = Some t ∧ entry_is inf (on_ray (combined kUnion (put (pl_tr l) A) (put (pl_tr r) B)) p d) 0 t.
Proof using Hinf.
  intros p d smax fuel El Er Na Nb. cbn [bool_shape s_to_in bool_to_in]. destruct (placed_in_ray _ _ _ _ _ _ El 0) as (a & Fa & Ha & _); [lra|]. destruct (placed_in_ray _ _ _ _ _ _ Er 0) as (b & Fb & Hb & _); [lra|].
  cbv beta in Fa, Fb. rewrite along_zero in Fa, Fb. unfold on_ray in Ha at 1. unfold on_ray in Hb at 1. rewrite along_zero in Ha, Hb. rewrite Fa. cbn [mbind option_bind]. rewrite Fb. cbn [mbind option_bind].
  eexists. split; [done|]. apply (union_entry inf Hinf (on_ray (put (pl_tr l) A) p d) (on_ray (put (pl_tr r) B) p d)); auto.
Qed.
Theorem C42_subtraction_to_out : ∀ p d smax fuel, placed_out_ok inf l A p d smax → placed_in_ok inf r B p d smax →
  put (pl_tr l) A p → ¬ put (pl_tr r) B p →
  ∃ t, s_to_out (bool_shape inf l r fuel kSubtraction) p d smax = Some t ∧ exit_is inf (on_ray (combined kSubtraction (put (pl_tr l) A) (put (pl_tr r) B)) p d) 0 t.
Proof using Hinf HB.
  intros p d smax fuel El Er Na Nb. cbn [bool_shape s_to_out bool_to_out]. destruct (placed_out_ray _ _ _ _ _ _ El 0) as (a & Fa & Ha & _); [lra|]. destruct (placed_in_ray _ _ _ _ _ _ Er 0) as (b & Fb & Hb & _); [lra|].
  cbv beta in Fa, Fb. rewrite along_zero in Fa, Fb. unfold on_ray in Ha at 1. unfold on_ray in Hb at 1. rewrite along_zero in Ha, Hb. rewrite Fa. cbn [mbind option_bind]. rewrite Fb. cbn [mbind option_bind].
  eexists. split; [done|]. apply (inter_exit inf Hinf (on_ray (put (pl_tr l) A) p d) (λ u, ¬ on_ray (put (pl_tr r) B) p d u)); [auto|]. apply entry_exit; [auto|]. by apply decided.
Qed.
(** Intersection: for a left operand that is not moved. *)
Theorem C42_intersection_to_out : ∀ p d smax fuel, pl_tr l = tr_one → placed_out_ok inf l A p d inf → placed_out_ok inf r B p d inf →
  put (pl_tr l) A p → put (pl_tr r) B p →
  ∃ t, s_to_out (bool_shape inf l r fuel kIntersection) p d smax = Some t ∧ exit_is inf (on_ray (combined kIntersection (put (pl_tr l) A) (put (pl_tr r) B)) p d) 0 t.
Proof using Hinf.
  intros p d smax fuel T El Er Na Nb. cbn [bool_shape s_to_out bool_to_out]. destruct (placed_out_ray _ _ _ _ _ _ El 0) as (a & Fa & Ha & _); [lra|]. destruct (placed_out_ray _ _ _ _ _ _ Er 0) as (b & Fb & Hb & _); [lra|].
  cbv beta in Fa, Fb. rewrite along_zero in Fa, Fb. unfold on_ray in Ha at 1. unfold on_ray in Hb at 1. rewrite along_zero in Ha, Hb.
  assert (pv_to_out l p d inf = Some a) as Fa'. { revert Fa. unfold pv_to_out, pv_to_out_placed. by rewrite T, transform_one, direction_one. }
  rewrite Fa'. cbn [mbind option_bind]. rewrite Fb. cbn [mbind option_bind]. eexists. split; [done|].
  apply (inter_exit inf Hinf (on_ray (put (pl_tr l) A) p d) (on_ray (put (pl_tr r) B) p d)); auto.
Qed.
(** The loops.  [M] bounds the operands along the ray; enough rounds are given. *)
(** Leaving a union: up to the result there is no gap wider than the push, and at the result one operand is left and the other
    one is not there within the push. *)
Theorem C42_union_to_out : ∀ p d smax M n fuel, placed_out_ok inf l A p d inf → placed_out_ok inf r B p d inf →
  (∀ s, 0 <= s → on_ray (put (pl_tr l) A) p d s → touched l p d s) → (∀ s, 0 <= s → on_ray (put (pl_tr r) B) p d s → touched r p d s) →
  (∀ s, M <= s → ¬ touched l p d s ∧ ¬ touched r p d s) → M <= INR n * kPush → (n < fuel)%nat → touched l p d 0 ∨ touched r p d 0 →
  ∃ t, s_to_out (bool_shape inf l r fuel kUnion) p d smax = Some t ∧ 0 <= t ∧ (∀ u, 0 <= u <= t → nearby kPush (λ u, touched l p d u ∨ touched r p d u) u) ∧
    left_at p d (on_ray (put (pl_tr l) A) p d) (on_ray (put (pl_tr r) B) p d) l r t.
Proof using Hinf HA HB.
  intros p d smax M n fuel El Er Tl Tr HM Hn Hf H0. cbn [bool_shape s_to_out bool_to_out].
  apply (union_to_out_ok inf Hinf l r p d _ _ M n fuel (placed_out_ray _ _ _ _ _ _ El) (placed_out_ray _ _ _ _ _ _ Er)); try done; [by apply decided|by apply decided| |]; intros s Hs; by apply HM.
Qed.
(** Entering an intersection: before the result no point of it further than twice the tolerance from a point that is not in it;
    both operands within the tolerance of the result. *)
Theorem C42_intersection_to_in : ∀ p d smax M n fuel, placed_in_ok inf l A p d inf → placed_in_ok inf r B p d inf → placed_out_ok inf l A p d smax → placed_out_ok inf r B p d smax →
  (∀ u, M <= u → ¬ on_ray (put (pl_tr l) A) p d u ∧ ¬ on_ray (put (pl_tr r) B) p d u) → M <= 10 ^ 20 → M <= INR n * kTolerance → (n < fuel)%nat →
  ∃ t, s_to_in (bool_shape inf l r fuel kIntersection) p d smax = Some t ∧
    ((t = 0 ∧ put (pl_tr l) A p ∧ put (pl_tr r) B p) ∨
     (t = inf ∧ missed_all (2 * kTolerance) (on_ray (combined kIntersection (put (pl_tr l) A) (put (pl_tr r) B)) p d) 0) ∨
     (0 < t ∧ missed (2 * kTolerance) (on_ray (combined kIntersection (put (pl_tr l) A) (put (pl_tr r) B)) p d) 0 t ∧
      nearby kTolerance (on_ray (put (pl_tr l) A) p d) t ∧ nearby kTolerance (on_ray (put (pl_tr r) B) p d) t)).
Proof using Hinf HA HB.
  intros p d smax M n fuel Il Ir Ol Or HM HM2 Hn Hf. cbn [bool_shape s_to_in bool_to_in].
  destruct (inter_to_in_ok inf Hinf l r p d _ _ M smax n fuel (contains_ray l A p d HA) (contains_ray r B p d HB) (placed_in_ray _ _ _ _ _ _ Il) (placed_in_ray _ _ _ _ _ _ Ir)
    (placed_out_ray _ _ _ _ _ _ Ol) (placed_out_ray _ _ _ _ _ _ Or)) as (t & Ft & H); [intros u Hu; by apply HM..|done|done|done|].
  exists t. split; [done|]. destruct H as [(? & H1 & H2)|H]; [left|by right]. unfold on_ray in H1, H2. rewrite along_zero in H1, H2. done.
Qed.
(** Entering a subtraction: the same up to the push, unless the right operand has gaps narrower than the push. *)
Theorem C42_subtraction_to_in : ∀ p d smax M n fuel, placed_in_ok inf l A p d smax → placed_in_ok inf r B p d smax → placed_out_ok inf l A p d inf → placed_out_ok inf r B p d smax →
  (∀ u, M <= u → ¬ on_ray (put (pl_tr l) A) p d u ∧ ¬ on_ray (put (pl_tr r) B) p d u) → no_narrow_gap (on_ray (put (pl_tr r) B) p d) →
  M + kTolerance <= inf → M <= INR n * kPush → (n < fuel)%nat →
  ∃ t, s_to_in (bool_shape inf l r fuel kSubtraction) p d smax = Some t ∧
    let S := on_ray (combined kSubtraction (put (pl_tr l) A) (put (pl_tr r) B)) p d in
    ((t = inf ∧ missed_all kPush S 0) ∨ (0 <= t ∧ missed kPush S 0 (t - kPush) ∧ nearby kPush S t)).
Proof using Hinf HA HB.
  intros p d smax M n fuel Il Ir Ol Or HM HG HM2 Hn Hf. cbn [bool_shape s_to_in].
  apply (sub_to_in_ok inf Hinf l r p d _ _ M smax (contains_ray l A p d HA) (contains_ray r B p d HB) (placed_in_ray _ _ _ _ _ _ Il) (placed_in_ray _ _ _ _ _ _ Ir)
    (placed_out_ray _ _ _ _ _ _ Ol) (placed_out_ray _ _ _ _ _ _ Or)) with (n := n); [intros u Hu; by apply HM..|done|done|done|done].
Qed.
End Distances.
Print Assumptions C42_union_to_in.
Print Assumptions C42_subtraction_to_out.
Print Assumptions C42_intersection_to_out.
Print Assumptions C42_union_to_out.
Print Assumptions C42_intersection_to_in.
Print Assumptions C42_subtraction_to_in.
(** The entry into a subtraction is overshot by the push, even where nothing is cut away. *)
Theorem C42_subtraction_overshoot_refuted : ∃ inf (l r : placed) (A B : v3 → Prop) p d, 10 ^ 20 < inf ∧
  decides (s_contains (pl_shape l)) A ∧ decides (s_contains (pl_shape r)) B ∧ placed_in_ok inf l A p d inf ∧ placed_in_ok inf r B p d inf ∧
  ¬ put (pl_tr l) A p ∧ ¬ put (pl_tr r) B p ∧ ∃ t, entry_is inf (on_ray (combined kSubtraction (put (pl_tr l) A) (put (pl_tr r) B)) p d) 0 t ∧
  ∀ fuel, s_to_in (bool_shape inf l r (S fuel) kSubtraction) p d inf = Some (t + kPush).
Proof.
  set (inf := 10 ^ 21). assert (10 ^ 20 < inf) as Hi by (unfold inf; apply Rlt_pow; [lra|lia]). assert (1000 < inf) as Hi2. { apply Rlt_trans with (10 ^ 20); [|done]. replace 1000 with (10 ^ 3) by ring. apply Rlt_pow; [lra|lia]. }
  clearbody inf. set (S1 := λ p : v3, - 1 <= vx p < 1).
  exists inf, (Placed tr_one (slab inf 1)), (Placed (tr_translation 100 0 0) (slab inf 1)), S1, S1, (V3 (-5) 0 0), x_axis. cbn [pl_tr pl_shape].
  split; [done|]. split; [apply slab_contains|]. split; [apply slab_contains|]. unfold placed_in_ok. cbn [pl_tr pl_shape]. rewrite transform_one, direction_one, translate_x, translate_dir.
  split; [apply slab_in; [lra|]; cbn [vx]; rewrite Rabs_left; lra|]. split; [apply slab_in; [lra|]; cbn [vx]; rewrite Rabs_left; lra|]. unfold put. rewrite transform_one, translate_x. unfold S1. cbn [vx].
  split; [lra|]. split; [lra|]. exists 4. split.
  - left. split; [lra|]. unfold entry_after, on_ray, combined, put. setoid_rewrite transform_one. setoid_rewrite translate_x. split; [lra|]. split.
    + intros u Hu. cbn [along vadd vscale x_axis vx vy vz]. lra.
    + intros e He. exists 4. cbn [along vadd vscale x_axis vx vy vz]. split; [lra|]. split; lra.
  - intros fuel. cbn [bool_shape s_to_in bool_to_in]. unfold pv_contains at 1. cbn [pl_tr pl_shape]. rewrite translate_x. cbn [slab s_contains vx]. pose proof tol_push. assert (kPush < 1) by (unfold kPush; lra).
    cbn [sub_in_loop]. match goal with |- context [rleb ?a ?b && _] => destruct (rleb_spec a b); [lra|] end. cbn [andb mbind option_bind]. unfold pv_to_in. cbn [pl_tr pl_shape]. rewrite transform_one, translate_x. cbn [slab s_to_in vx mbind option_bind].
    match goal with |- context [rltb ?a (- (1))] => destruct (rltb_spec a (- (1))); [|lra] end. rewrite Rmax_left by lra. destruct (reqb_spec (- (1) - -5) inf); [lra|].
    match goal with |- context [rltb ?a (- (1))] => destruct (rltb_spec a (- (1))); [|lra] end. match goal with |- context [rltb ?a ?b] => destruct (rltb_spec a b) as [_|K]; [|lra] end. f_equal. lra.
Qed.
Print Assumptions C42_subtraction_overshoot_refuted.
(** A left operand that is moved is asked in the wrong frame when leaving an intersection: the result is too large. *)
Theorem C42_left_placed_refuted : ∃ inf (l r : placed) (A B : v3 → Prop) p d, 10 ^ 20 < inf ∧
  decides (s_contains (pl_shape l)) A ∧ decides (s_contains (pl_shape r)) B ∧ placed_out_ok inf l A p d inf ∧ placed_out_ok inf r B p d inf ∧
  put (pl_tr l) A p ∧ put (pl_tr r) B p ∧ ∃ t t', exit_is inf (on_ray (combined kIntersection (put (pl_tr l) A) (put (pl_tr r) B)) p d) 0 t ∧ t < t' ∧
  ∀ fuel, s_to_out (bool_shape inf l r (S fuel) kIntersection) p d inf = Some t'.
Proof.
  set (inf := 10 ^ 21). assert (10 ^ 20 < inf) as Hi by (unfold inf; apply Rlt_pow; [lra|lia]). assert (1000 < inf) as Hi2. { apply Rlt_trans with (10 ^ 20); [|done]. replace 1000 with (10 ^ 3) by ring. apply Rlt_pow; [lra|lia]. }
  clearbody inf. set (S1 := λ p : v3, - 1 <= vx p < 1). set (S9 := λ p : v3, - 9 <= vx p < 9).
  exists inf, (Placed (tr_translation (-1 / 2) 0 0) (slab inf 1)), (Placed tr_one (slab inf 9)), S1, S9, (V3 (-4 / 10) 0 0), x_axis. cbn [pl_tr pl_shape].
  split; [done|]. split; [apply slab_contains|]. split; [apply slab_contains|]. unfold placed_out_ok. cbn [pl_tr pl_shape]. rewrite transform_one, direction_one, translate_x, translate_dir.
  split; [apply slab_out; [lra|]; cbn [vx]; rewrite Rabs_right; lra|]. split; [apply slab_out; [lra|]; cbn [vx]; rewrite Rabs_left; lra|]. unfold put. rewrite transform_one, translate_x. unfold S1, S9. cbn [vx].
  split; [lra|]. split; [lra|]. exists (9 / 10), (14 / 10). split; [|split; [lra|]].
  - left. split; [lra|]. unfold exit_after, on_ray, combined, put. setoid_rewrite transform_one. setoid_rewrite translate_x. split; [lra|]. split.
    + intros u Hu. cbn [along vadd vscale x_axis vx vy vz]. lra.
    + intros e He. exists (9 / 10). cbn [along vadd vscale x_axis vx vy vz]. split; [lra|]. intros [? _]; lra.
  - intros fuel. cbn [bool_shape s_to_out bool_to_out]. unfold pv_to_out, pv_to_out_placed. cbn [pl_tr pl_shape]. rewrite transform_one. cbn [slab s_to_out vx mbind option_bind].
    repeat match goal with |- context [rleb ?a ?b] => destruct (rleb_spec a b); [|lra] | |- context [rltb ?a ?b] => destruct (rltb_spec a b); [|lra] end. cbn [andb]. rewrite Rmin_left by lra. f_equal. lra.
Qed.
Print Assumptions C42_left_placed_refuted.
(** The hypotheses of the theorems, for two slabs one behind the other. *)
Example C42_example : ∃ inf (l r : placed) (A B : v3 → Prop) p d M, 10 ^ 20 < inf ∧ decides (s_contains (pl_shape l)) A ∧ decides (s_contains (pl_shape r)) B ∧
  placed_in_ok inf l A p d inf ∧ placed_in_ok inf r B p d inf ∧ placed_out_ok inf l A p d inf ∧ placed_out_ok inf r B p d inf ∧
  (∀ u, M <= u → ¬ on_ray (put (pl_tr l) A) p d u ∧ ¬ on_ray (put (pl_tr r) B) p d u) ∧ no_narrow_gap (on_ray (put (pl_tr r) B) p d) ∧
  (∀ s, 0 <= s → on_ray (put (pl_tr l) A) p d s → touched l p d s) ∧ (∀ s, 0 <= s → on_ray (put (pl_tr r) B) p d s → touched r p d s) ∧
  (∀ s, M <= s → ¬ touched l p d s ∧ ¬ touched r p d s) ∧ M + kTolerance <= inf ∧ M <= 10 ^ 20 ∧ pl_tr l = tr_one ∧ touched l p d 0.
Proof.
  set (inf := 10 ^ 21). assert (10 ^ 20 < inf) as Hi by (unfold inf; apply Rlt_pow; [lra|lia]). assert (1000 < 10 ^ 20) as Hi2. { replace 1000 with (10 ^ 3) by ring. apply Rlt_pow; [lra|lia]. }
  clearbody inf. set (S1 := λ p : v3, - 1 <= vx p < 1). assert (kTolerance < 1) by (unfold kTolerance; lra).
  exists inf, (Placed tr_one (slab inf 1)), (Placed (tr_translation 3 0 0) (slab inf 1)), S1, S1, vzero, x_axis, 20. unfold placed_in_ok, placed_out_ok. cbn [pl_tr pl_shape]. rewrite transform_one, direction_one, translate_x, translate_dir.
  split; [done|]. split; [apply slab_contains|]. split; [apply slab_contains|].
  split; [apply slab_in; [lra|]; cbn; rewrite Rabs_R0; lra|]. split; [apply slab_in; [lra|]; cbn; rewrite Rabs_left; lra|].
  split; [apply slab_out; [lra|]; cbn; rewrite Rabs_R0; lra|]. split; [apply slab_out; [lra|]; cbn; rewrite Rabs_left; lra|].
  assert (∀ u, on_ray (put tr_one S1) vzero x_axis u ↔ - 1 <= u < 1) as E1. { intros u. unfold on_ray, put. rewrite transform_one. unfold S1. cbn. lra. }
  assert (∀ u, on_ray (put (tr_translation 3 0 0) S1) vzero x_axis u ↔ 2 <= u < 4) as E2. { intros u. unfold on_ray, put. rewrite translate_x. unfold S1. cbn. lra. }
  assert (∀ t u, touched (Placed t (slab inf 1)) vzero x_axis u ↔ on_ray (put t S1) vzero x_axis u) as ET.
  { intros t u. unfold touched. cbn [pl_tr pl_shape slab s_inside]. unfold on_ray, put. pose proof (slab_contains inf 1 (transform t (along vzero x_axis u))) as K. cbn [slab s_contains] in K. change (S1 (transform t (along vzero x_axis u))) with (- (1) <= vx (transform t (along vzero x_axis u)) < 1). destruct (_ && _); naive_solver. }
  split; [intros u Hu; rewrite E1, E2; lra|]. split.
  { intros s t Hs. rewrite !E2. intros Bs (H0 & H1 & H2) K. destruct (H2 kPush kPush_pos) as (u & Hu & N). apply N, E2. lra. }
  split; [intros s _; by rewrite ET|]. split; [intros s _; by rewrite ET|]. split; [intros s Hs; rewrite !ET, E1, E2; lra|]. split; [lra|]. split; [lra|]. split; [done|]. rewrite ET, E1. lra.
Qed.

(** ** Normals (BooleanUnionImplementation.h:188-235, BooleanIntersectionImplementation.h:196-238, BooleanImplementation.h:198-249) *)
(** On the surface of one operand and clear of the other one: the normal of that operand, reversed for what is cut away;
    for operands that are not moved. *)
Definition reversed (n : v3 * bool) : v3 * bool := (vneg n.1, n.2).
Theorem C68_normal : ∀ inf fuel (l r : placed) p, pl_tr l = tr_one → pl_tr r = tr_one →
  (on_surface l p → clear_out r p → s_normal (bool_shape inf l r fuel kUnion) p = facing l p) ∧
  (on_surface r p → clear_out l p → s_normal (bool_shape inf l r fuel kUnion) p = facing r p) ∧
  (on_surface l p → clear_in r p → s_normal (bool_shape inf l r fuel kIntersection) p = facing l p) ∧
  (on_surface r p → clear_in l p → s_normal (bool_shape inf l r fuel kIntersection) p = facing r p) ∧
  (on_surface l p → clear_out r p → s_normal (bool_shape inf l r fuel kSubtraction) p = facing l p) ∧
  (on_surface r p → clear_in l p → s_normal (bool_shape inf l r fuel kSubtraction) p = reversed (facing r p)).
Proof.
  intros inf fuel l r p Tl Tr. cbn [bool_shape s_normal]. unfold bool_normal, operand_normal, operand_normal_flipped, pv_normal, pv_contains, pv_safety_in, pv_safety_out, facing, reversed, on_surface, clear_in, clear_out.
  rewrite Tl, Tr. cbn [bool_normal]. rewrite !transform_one.
  destruct (s_normal (pl_shape l) p) as [nl vl], (s_normal (pl_shape r) p) as [nr vr]. rewrite !inverse_direction_one. cbn [fst snd].
  split; [|split; [|split; [|split; [|split]]]]; intros (S1 & S2) (C1 & C2); rewrite C1; cbn [negb].
  - destruct (s_contains (pl_shape l) p); [done|]. destruct (rltb_spec (s_safety_in (pl_shape l) p) (s_safety_in (pl_shape r) p)); [done|lra].
  - destruct (s_contains (pl_shape r) p); [done|]. destruct (rltb_spec (s_safety_in (pl_shape l) p) (s_safety_in (pl_shape r) p)); [lra|done].
  - destruct (s_contains (pl_shape l) p); match goal with |- context [rltb ?a ?b] => destruct (rltb_spec a b); [done|lra] end.
  - destruct (s_contains (pl_shape r) p); match goal with |- context [rltb ?a ?b] => destruct (rltb_spec a b); [lra|done] end.
  - destruct (s_contains (pl_shape l) p); cbn [negb]; [|done]. match goal with |- context [rltb ?a ?b] => destruct (rltb_spec a b); [done|lra] end.
  - destruct (s_contains (pl_shape r) p); [done|]. match goal with |- context [rltb ?a ?b] => destruct (rltb_spec a b); [lra|done] end.
Qed.
Print Assumptions C68_normal.
(** A moved operand: the point is transformed twice.  The right face of a box moved to 10: perpendicular to the
    true normal, and declared invalid. *)
Theorem C68_moved_refuted : ∃ inf (l r : placed) p, ortho (pl_tr r) ∧ on_surface r p ∧ clear_out l p ∧ facing r p = (V3 1 0 0, true) ∧
  ∀ fuel, ∃ n, s_normal (bool_shape inf l r fuel kUnion) p = (n, false) ∧ vdot n (V3 1 0 0) = 0.
Proof.
  set (b := V3 1 1 1). exists 1000, (Placed tr_one (box_shape 1000 b)), (Placed (tr_translation 10 0 0) (box_shape 1000 b)), (V3 11 0 0). cbn [pl_tr pl_shape]. split; [apply translation_ok|].
  assert (∀ x, 1 <= x → box_outer b (V3 x 0 0) = x - 1) as EO. { intros x Hx. unfold box_outer, vmax, b; cbn. rewrite Rabs_right, Rabs_R0 by lra. unfold Rmax. repeat destruct (Rle_dec _ _); lra. }
  assert (∀ x, box_contains b (V3 x 0 0) = rltb (box_outer b (V3 x 0 0)) 0) as EC by done. pose proof kHalfTolerance_pos. assert (kHalfTolerance < 1) by (unfold kHalfTolerance, kTolerance; lra).
  unfold on_surface, clear_out, facing. cbn [pl_tr pl_shape box_shape s_safety_in s_safety_out s_contains s_normal]. rewrite transform_one, !translate_x, translate_back. cbn [vx vy vz]. replace (11 - 10) with 1 by lra.
  rewrite safety_out_neg. unfold box_safety_in. rewrite EC, !EO by lra. split; [lra|]. split; [split; [destruct (rltb_spec (11 - 1) 0); [lra|done]|lra]|]. split.
  - unfold box_normal. cbv zeta. assert (vabs (vsub (vabs (V3 1 0 0)) b) = V3 0 1 1) as ->. { apply v3_eq; cbn; rewrite ?(Rabs_right 1), ?Rabs_R0 by lra; [replace (1 - 1) with 0 by lra; apply Rabs_R0|rewrite Rabs_left; lra..]. }
    assert (vmin (V3 0 1 1) = 0) as -> by (unfold vmin; cbn; unfold Rmin; repeat destruct (Rle_dec _ _); lra). cbn [vx vy vz].
    destruct (rltb_spec (0 - 0) kHalfTolerance); [|lra]. destruct (rltb_spec (1 - 0) kHalfTolerance); [lra|]. destruct (rltb_spec 0 kHalfTolerance); [|lra]. unfold rsign. destruct (rltb_spec 1 0); [lra|].
    unfold rgtb. match goal with |- context [rltb 1 ?d] => destruct (rltb_spec 1 d) as [K|_]; [unfold vdot in K; cbn in K; lra|done] end.
  - intros fuel. cbn [bool_shape s_normal bool_normal]. unfold operand_normal, pv_contains, pv_safety_in, pv_normal. cbn [pl_tr pl_shape box_shape s_safety_in s_contains s_normal]. rewrite transform_one, !translate_x. cbn [vx vy vz]. replace (11 - 10) with 1 by lra. unfold box_safety_in. rewrite !EC, !EO by lra.
    destruct (rltb_spec (11 - 1) 0); [lra|]. destruct (rltb_spec (1 - 1) 0); [lra|]. destruct (rltb_spec (11 - 1) (1 - 1)); [lra|].
    unfold box_normal. cbv zeta. assert (vabs (vsub (vabs (V3 (1 - 10) 0 0)) b) = V3 8 1 1) as ->. { apply v3_eq; cbn; rewrite ?(Rabs_left (1 - 10)), ?Rabs_R0 by lra; [rewrite Rabs_right; lra|rewrite Rabs_left; lra..]. }
    assert (vmin (V3 8 1 1) = 1) as -> by (unfold vmin; cbn; unfold Rmin; repeat destruct (Rle_dec _ _); lra). cbn [vx vy vz].
    destruct (rltb_spec (8 - 1) kHalfTolerance); [lra|]. destruct (rltb_spec (1 - 1) kHalfTolerance); [|lra]. destruct (rltb_spec 1 kHalfTolerance); [lra|].
    eexists. split; [reflexivity|]. unfold rsign. destruct (rltb_spec 0 0); [lra|]. destruct (rgtb _ _); unfold vdot; cbn; ring.
Qed.
Print Assumptions C68_moved_refuted.
Example C68_example : let l := Placed tr_one (slab 1000 3) in let r := Placed tr_one (slab 1000 1) in
  on_surface r (V3 (-1) 0 0) ∧ clear_in l (V3 (-1) 0 0) ∧ s_normal (bool_shape 1000 l r 1 kSubtraction) (V3 (-1) 0 0) = reversed (V3 (-1) 0 0, true).
Proof.
  cbv zeta. assert (on_surface (Placed tr_one (slab 1000 1)) (V3 (-1) 0 0)) as H1. { unfold on_surface. cbn [pl_tr pl_shape]. rewrite transform_one. cbn. rewrite Rabs_left; lra. }
  assert (clear_in (Placed tr_one (slab 1000 3)) (V3 (-1) 0 0)) as H2. { unfold clear_in. cbn [pl_tr pl_shape]. rewrite transform_one. cbn. rewrite Rabs_left by lra. rewrite andb_true_iff, rleb_true, rltb_true. lra. }
  split; [done|]. split; [done|]. destruct (C68_normal 1000 1 (Placed tr_one (slab 1000 3)) (Placed tr_one (slab 1000 1)) (V3 (-1) 0 0) eq_refl eq_refl) as (_ & _ & _ & _ & _ & K). rewrite K by done. f_equal.
  unfold facing. cbn [pl_tr pl_shape]. rewrite transform_one, inverse_direction_one. cbn. unfold rsign. destruct (rltb_spec (-1) 0); [done|lra].
Qed.

(** ** Extents (source/UnplacedBooleanVolume.cpp:380-472) *)
(** For operands that are not moved the extent contains the solid. *)
Theorem C69_extent : ∀ inf fuel op (l r : placed) (A B : v3 → Prop), pl_tr l = tr_one → pl_tr r = tr_one →
  (∀ q, A q → in_box (Box (s_extent (pl_shape l)).1 (s_extent (pl_shape l)).2) q) → (∀ q, B q → in_box (Box (s_extent (pl_shape r)).1 (s_extent (pl_shape r)).2) q) →
  ∀ q, combined op (put (pl_tr l) A) (put (pl_tr r) B) q → in_box (Box (s_extent (bool_shape inf l r fuel op)).1 (s_extent (bool_shape inf l r fuel op)).2) q.
Proof.
  intros inf fuel op l r A B Tl Tr HA HB q. rewrite Tl, Tr. cbn [bool_shape s_extent].
  assert (put tr_one A q → in_box (transformed_extent inf l) q) as KA by (rewrite put_one; intros; apply transformed_extent_one; auto).
  assert (put tr_one B q → in_box (transformed_extent inf r) q) as KB by (rewrite put_one; intros; apply transformed_extent_one; auto).
  unfold bool_extent. cbv zeta. set (a := transformed_extent inf l) in *. set (b := transformed_extent inf r) in *. clearbody a b. unfold in_box in *. destruct op; cbn [combined fst snd bmin bmax vx vy vz].
  - intros [H|H]; [specialize (KA H)|specialize (KB H)]; repeat split; first [eapply Rle_trans; [apply Rmin_l|lra]|eapply Rle_trans; [apply Rmin_r|lra]|eapply Rle_trans; [|apply Rmax_l]; lra|eapply Rle_trans; [|apply Rmax_r]; lra].
  - intros [H1 H2]. specialize (KA H1). specialize (KB H2). repeat split; first [apply Rmax_lub; lra|apply Rmin_glb; lra].
  - intros [H1 _]. by specialize (KA H1).
Qed.
Print Assumptions C69_extent.
(** A moved operand: the extent of the placed volume, already in the common frame, is transformed again.  The union loses points
    on the far side, the intersection gets an empty extent. *)
Lemma twice_moved inf x h : 0 < h → h + 2 * Rabs x < inf → vx (bmin (transformed_extent inf (Placed (tr_translation x 0 0) (box_shape inf (V3 h h h))))) = 2 * x - h ∧
  vx (bmax (transformed_extent inf (Placed (tr_translation x 0 0) (box_shape inf (V3 h h h))))) = 2 * x + h.
Proof.
  intros Hh Hi. pose proof (Rle_abs x). pose proof (Rle_abs (- x)) as K. rewrite Rabs_Ropp in K. unfold transformed_extent, pv_extent, placed_extent. cbn [pl_tr pl_shape box_shape s_extent box_extent fst snd tr_translation hasr bmin bmax].
  set (lo := inverse_transform _ _). set (up := inverse_transform _ _). assert (lo = V3 (x - h) (- h) (- h)) as El by (apply v3_eq; unfold lo; cbn; ring). assert (up = V3 (x + h) h h) as Eu by (apply v3_eq; unfold up; cbn; ring).
  rewrite El, Eu. clear El Eu lo up. set (st := Box (V3 inf inf inf) (V3 (- inf) (- inf) (- inf))). set (cs := inverse_transform _ <$> _).
  assert (∀ c, c ∈ cs → vx c = 2 * x - h ∨ vx c = 2 * x + h) as KC.
  { intros c Hc. apply elem_of_list_fmap in Hc as (q & -> & Hq). apply corners_elem in Hq as ([Q|Q] & _); cbn in Q; [left|right]; cbn; rewrite Q; ring. }
  assert (∀ q, is_corner (Box (V3 (x - h) (- h) (- h)) (V3 (x + h) h h)) q → in_box (foldl extend_box st cs) (inverse_transform (tr_translation x 0 0) q)) as KI.
  { intros q Hq. apply fold_in. apply elem_of_list_fmap. exists q. split; [done|]. by apply corners_elem. }
  destruct (KI (V3 (x - h) (- h) (- h))) as ((I1 & _) & _); [by repeat split; left|]. destruct (KI (V3 (x + h) h h)) as ((_ & I2) & _); [by repeat split; right|].
  destruct (fold_attained (λ b, vx (bmin b)) vx) with (l := cs) (b := st) as [A1|(c & Hc & A1)]; [intros; apply min_cases| |];
  (destruct (fold_attained (λ b, vx (bmax b)) vx) with (l := cs) (b := st) as [A2|(c' & Hc' & A2)]; [intros; apply max_cases| |]);
  try (destruct (KC _ Hc)); try (destruct (KC _ Hc')); set (F := foldl extend_box st cs) in *; clearbody F; cbn in A1, A2, I1, I2; lra.
Qed.
Theorem C69_moved_refuted : ∃ inf (l r r' : placed) q q', ortho (pl_tr r) ∧
  (∀ v q, v = l ∨ v = r ∨ v = r' → s_contains (pl_shape v) q = true → in_box (Box (s_extent (pl_shape v)).1 (s_extent (pl_shape v)).2) q) ∧
  ∀ fuel, (s_contains (bool_shape inf l r fuel kUnion) q = true ∧ ¬ in_box (Box (s_extent (bool_shape inf l r fuel kUnion)).1 (s_extent (bool_shape inf l r fuel kUnion)).2) q) ∧
          (s_contains (bool_shape inf l r' fuel kIntersection) q' = true ∧
           vx (s_extent (bool_shape inf l r' fuel kIntersection)).2 < vx (s_extent (bool_shape inf l r' fuel kIntersection)).1).
Proof.
  exists 1000, (Placed (tr_translation 0 0 0) (box_shape 1000 (V3 3 3 3))), (Placed (tr_translation 1 0 0) (box_shape 1000 (V3 5 5 5))), (Placed (tr_translation 3 0 0) (box_shape 1000 (V3 1 1 1))), (V3 (-7 / 2) 0 0), (V3 (5 / 2) 0 0).
  cbn [pl_tr]. split; [apply translation_ok|]. split.
  { assert (∀ b q, box_contains b q = true → in_box (Box (vneg b) b) q) as K. { intros b q H. apply C37_classes in H. destruct H as (H1 & H2 & H3). unfold centred in *. cbn in *. unfold in_box. cbn. lra. }
    intros v q [-> |[-> | ->]]; cbn [pl_shape box_shape s_contains s_extent box_extent fst snd]; apply K. }
  intros fuel. cbn [bool_shape s_contains s_extent bool_contains bool_extent]. unfold pv_contains. cbn [pl_tr pl_shape box_shape s_contains]. rewrite !translate_x. cbn [vx vy vz].
  destruct (twice_moved 1000 0 3) as (A1 & A2); [lra|rewrite Rabs_R0; lra|]. destruct (twice_moved 1000 1 5) as (B1 & B2); [lra|rewrite Rabs_right; lra|]. destruct (twice_moved 1000 3 1) as (D1 & D2); [lra|rewrite Rabs_right; lra|].
  split; split.
  - assert (box_contains (V3 5 5 5) (V3 (-7 / 2 - 1) 0 0) = true) as -> by (apply C37_classes; unfold interior, in_interior, centred, vneg; cbn; lra). destruct (box_contains _ _); done.
  - intros (K & _). cbn [fst snd bmin bmax vx] in K. rewrite A1, B1 in K. revert K. unfold Rmin. destruct (Rle_dec _ _); lra.
  - rewrite andb_true_iff. split; apply C37_classes; unfold interior, in_interior, centred, vneg; cbn; lra.
  - cbn [fst snd vx]. rewrite A1, A2, D1, D2. unfold Rmin, Rmax. repeat destruct (Rle_dec _ _); lra.
Qed.
Print Assumptions C69_moved_refuted.
Example C69_example : let l := Placed tr_one (box_shape 1000 (V3 1 2 3)) in let r := Placed tr_one (box_shape 1000 (V3 2 1 1)) in
  in_box (Box (s_extent (bool_shape 1000 l r 1 kUnion)).1 (s_extent (bool_shape 1000 l r 1 kUnion)).2) (V3 (3 / 2) 0 0).
Proof.
  cbv zeta. eapply (C69_extent 1000 1 kUnion (Placed tr_one (box_shape 1000 (V3 1 2 3))) (Placed tr_one (box_shape 1000 (V3 2 1 1))) (λ q, box_contains (V3 1 2 3) q = true) (λ q, box_contains (V3 2 1 1) q = true)); try done.
  - intros q H. apply C37_classes in H. destruct H as (H1 & H2 & H3). unfold centred in *. cbn in *. unfold in_box. cbn. lra.
  - intros q H. apply C37_classes in H. destruct H as (H1 & H2 & H3). unfold centred in *. cbn in *. unfold in_box. cbn. lra.
  - right. unfold put. cbn [pl_tr]. rewrite transform_one. apply C37_classes. unfold interior, in_interior, centred, vneg; cbn. lra.
Qed.
