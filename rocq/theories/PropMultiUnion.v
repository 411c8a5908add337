(** Multi-unions: points, classes, neighbours, safeties, ray distances, normals (C44, C70). *)
From Coq Require Import Reals Lra Lia.
From stdpp Require Import sets list list_numbers option sorting.
From Verif Require Import Real3 AABBModel AABBSpec AABBProofs VoxelModel ABBoxModel ABBoxProofs TransModel TransSpec TransProofs BoxModel BoxSpec BoxProofs ExtentModel ExtentSpec ExtentProofs ShapeModel HybridModel HybridSpec HybridProofs HybridQuery
  SortModel SortProofs SearchModel SearchSpec SearchProofs SafetyModel BoolModel BoolSpec BoolProofs MultiUnionModel MultiUnionSpec MultiUnionProofs PropSearch.
Import stdpp.list.
Local Open Scope R_scope.

(** A multi-union of the components [vols], added one after the other and closed; at least one of them, at most
    VECGEOM_MAXFACETS, each in its extent. *)
Definition of_components (inf : R) (kvs : nat) (pick : nat → list nat → list nat → nat) (M : R) (vols : list placed) (c : MultiUnionModel.closed) : Prop :=
  (1 ≤ kvs)%nat ∧ chooses pick ∧ vols ≠ [] ∧ (Z.of_nat (length vols) ≤ 20000)%Z ∧ (∀ v, v ∈ vols → held v) ∧
  mu_close inf kvs pick M (foldl (mu_add inf) (mu_new inf) vols) = Some c.
Lemma of_closed inf kvs pick M vols c : of_components inf kvs pick M vols c → closed_of inf kvs pick M vols c.
Proof. intros (Hk & Hp & Hv & Hcap & Hh & E). destruct (close_ok inf kvs pick M vols Hk Hp Hv) as (c' & E' & Hc). unfold built in E'. congruence. Qed.
Section C44.
Variables (inf : R) (kvs : nat) (pick : nat → list nat → list nat → nat) (M : R) (vols : list placed) (c : MultiUnionModel.closed).
Hypothesis Hof : of_components inf kvs pick M vols c.
Local Ltac start := pose proof (of_closed _ _ _ _ _ _ Hof) as Hc; destruct Hof as (Hk & Hp & Hv & Hcap & Hh & E).
Theorem C44_contains p : ∃ b, mu_contains kvs c p = Some b ∧ (b = true ↔ some_comp (λ v, pv_contains v p = true) vols).
Proof using Hof. start. eapply contains_ok; eauto. Qed.
Theorem C44_inside p : ∃ r, mu_inside kvs c p = Some r ∧ (r = kInside ↔ some_comp (λ v, pv_inside v p = kInside) vols) ∧ (r = kOutside ↔ ∀ v, v ∈ vols → pv_inside v p = kOutside).
Proof using Hof. start. eapply inside_ok; eauto. Qed.
(** The component located for a point. *)
Theorem C44_component p : ∃ r, inside_component kvs c p = Some r ∧
  match r with Some k => ∃ v, vols !! k = Some v ∧ pv_inside v p ≠ kOutside | None => ∀ v, v ∈ vols → pv_inside v p = kOutside end.
Proof using Hof. start. eapply component_ok; eauto. Qed.
(** The extent: the least box around the boxes of the components; the points of the union are in it. *)
Theorem C44_extent : let m := foldl (mu_add inf) (mu_new inf) vols in let e := Box (mu_min m) (mu_max m) in
  mu_vols m = vols ∧ (∀ v p, v ∈ vols → pv_contains v p = true ∨ pv_inside v p ≠ kOutside → in_interior e p) ∧
  (∀ v, v ∈ vols → within (abbox_of inf v) e) ∧
  ∀ b, (∀ v, v ∈ vols → within (abbox_of inf v) b) → within (Box (V3 inf inf inf) (V3 (- inf) (- inf) (- inf))) b → within e b.
Proof using Hof.
  start. cbv zeta. change (foldl (mu_add inf) (mu_new inf) vols) with (built inf vols). split; [apply built_vols|]. split.
  - intros v p K1 K2. eapply within_interior; [by apply built_within|]. by apply held_box; [apply Hh|].
  - split; [apply built_within|]. intros b. apply built_least.
Qed.
(** Every row of neighbours: exactly the other components with a box that meets, each once; so neighbourhood is mutual. *)
Theorem C44_neighbours i : (i < length vols)%nat →
  ∃ ns, neighbours c i = Some ns ∧ NoDup ns ∧ (∀ j, j ∈ ns ↔ adjacent kTolerance (abbox_of inf <$> vols) i j) ∧
    ∀ j, j ∈ ns → ∃ ns', neighbours c j = Some ns' ∧ i ∈ ns'.
Proof using Hof.
  start. intros Hi. destruct (neighbours_ok inf kvs pick M vols Hk Hp c Hc Hcap Hh i Hi) as (ns & E1 & N & F). exists ns. split; [done|]. split; [done|]. split; [done|].
  intros j Hj. apply F in Hj. pose proof Hj as (_ & a & b & _ & Lj & _). apply lookup_lt_Some in Lj. rewrite fmap_length in Lj. destruct (neighbours_ok inf kvs pick M vols Hk Hp c Hc Hcap Hh j Lj) as (ns' & E2 & _ & F'). exists ns'. split; [done|]. apply F'. by apply adjacent_sym.
Qed.
(** SafetyToIn.  [M] is so large that unused lanes are beyond the limit (in floating point the square of their distance
    is infinite). *)
Theorem C44_safety_in p : 1 <= inf → 0 < M + vx p → inf <= (M + vx p) * (M + vx p) →
  (∀ v, v ∈ vols → pv_inside v p = kOutside) →
  (∀ v, v ∈ vols → (∀ q, pv_contains v q = true → 0 < pv_safety_in v p <= vdist p q) ∧ ∃ q, pv_contains v q = true ∧ vdist p q * vdist p q < inf) →
  ∃ r, mu_safety_in inf kvs c p = Some r ∧ 0 < r ∧ (∃ v, v ∈ vols ∧ r = pv_safety_in v p) ∧ ∀ v q, v ∈ vols → pv_contains v q = true → r <= vdist p q.
Proof using Hof.
  start. intros Hinf HM Hfar Hout Hs.
  assert (∃ obj : nat → v3, ∀ i v, vols !! i = Some v → pv_contains v (obj i) = true ∧ vdist p (obj i) * vdist p (obj i) < inf) as (obj & Hobj).
  { assert (∀ l : list placed, (∀ v, v ∈ l → ∃ q, pv_contains v q = true ∧ vdist p q * vdist p q < inf) → ∃ obj : nat → v3, ∀ i v, l !! i = Some v → pv_contains v (obj i) = true ∧ vdist p (obj i) * vdist p (obj i) < inf) as K; [|apply K; intros v Kv; by apply Hs].
    induction l as [|v l IH]; intros Hl; [exists (λ _, vzero); done|]. destruct IH as (o & Ho); [intros w Kw; apply Hl; by right|]. destruct (Hl v) as (q & Hq); [left|].
    exists (λ i, match i with O => q | S j => o j end). intros [|i] w Hw; cbn in Hw; [by injection Hw as <-|by apply Ho]. }
  assert (∀ obj' : nat → v3, (∀ i v, vols !! i = Some v → pv_contains v (obj' i) = true ∧ vdist p (obj' i) * vdist p (obj' i) < inf) →
    ∃ k v, safety_in_comp inf kvs c p = Some (pv_safety_in v p, Some k) ∧ vols !! k = Some v ∧ ∀ i, (i < length vols)%nat → pv_safety_in v p <= vdist p (obj' i)) as K.
  { intros obj' Ho. apply (safety_comp_ok inf kvs pick M vols Hk Hp c Hc Hcap Hh p obj' Hinf HM Hfar). intros i v Hi. destruct (Ho i v Hi) as [O1 O2]. assert (v ∈ vols) as Hv' by (by eapply elem_of_list_lookup_2).
    split; [apply held_box; [by apply Hh|by left]|]. split; [by apply Hs|done]. }
  destruct (K obj Hobj) as (k & v & E1 & Hk' & Hr). assert (v ∈ vols) as Hv' by (by eapply elem_of_list_lookup_2).
  exists (pv_safety_in v p). unfold mu_safety_in. destruct (component_ok inf kvs pick M vols Hk Hp c Hc Hcap Hh p) as (r & E2 & Hr2). rewrite E2. cbn [mbind option_bind]. destruct r as [k2|].
  { destruct Hr2 as (w & Hw & Nw). exfalso. apply Nw, Hout. by eapply elem_of_list_lookup_2. }
  rewrite E1. cbn [mbind option_bind fst]. split; [done|]. split; [destruct (Hs v Hv') as [S1 (q & Hq & _)]; by apply (S1 q)|]. split; [by exists v|].
  intros w q Hw Hq. apply elem_of_list_lookup in Hw as (i & Hi). destruct (Rlt_dec (vdist p q * vdist p q) inf) as [L|L].
  - destruct (K (λ j, if decide (j = i) then q else obj j)) as (k3 & v3 & E3 & _ & H3).
    { intros j u Hu. destruct (decide (j = i)) as [-> |]; [|by apply Hobj]. assert (u = w) as -> by congruence. done. }
    specialize (H3 i ltac:(by eapply lookup_lt_Some)). cbn in H3. rewrite decide_True in H3 by done. rewrite E1 in E3. injection E3 as E3 _. lra.
  - specialize (Hr i ltac:(by eapply lookup_lt_Some)). destruct (Hobj i w Hi) as [_ O2]. assert (0 <= vdist p (obj i)) by apply sqrt_pos. assert (0 <= vdist p q) by apply sqrt_pos.
    apply Rnot_lt_le. intros L2. assert (vdist p q * vdist p q < vdist p (obj i) * vdist p (obj i)) by (apply Rmult_le_0_lt_compat; lra). lra.
Qed.
Theorem C44_safety_in_inside p : some_comp (λ v, pv_inside v p ≠ kOutside) vols → mu_safety_in inf kvs c p = Some (- (1)).
Proof using Hof.
  start. intros (v & Hv' & N). unfold mu_safety_in. destruct (component_ok inf kvs pick M vols Hk Hp c Hc Hcap Hh p) as (r & -> & Hr). cbn [mbind option_bind]. destruct r as [k|]; [done|]. specialize (Hr v Hv'). congruence.
Qed.
(** SafetyToOut: the least positive one of the located component and its neighbours, so no point outside the union is closer. *)
Theorem C44_safety_out p : (∀ v q, v ∈ vols → pv_contains v q = false → pv_inside v p ≠ kOutside → pv_safety_out v (transform (pl_tr v) p) <= vdist p q) →
  some_comp (λ v, pv_inside v p ≠ kOutside) vols →
  ∃ r, mu_safety_out kvs c p = Some r ∧ (∀ q, (∀ v, v ∈ vols → pv_contains v q = false) → r <= vdist p q) ∧
    (∃ v, v ∈ vols ∧ r = pv_safety_out v (transform (pl_tr v) p)) ∧
    ∃ k ns, inside_component kvs c p = Some (Some k) ∧ neighbours c k = Some ns ∧ ∀ i v, i ∈ ns → vols !! i = Some v → 0 < pv_safety_out v (transform (pl_tr v) p) → r <= pv_safety_out v (transform (pl_tr v) p).
Proof using Hof.
  start. intros Hs (v0 & Hv0 & N0). unfold mu_safety_out. destruct (component_ok inf kvs pick M vols Hk Hp c Hc Hcap Hh p) as (r & E1 & Hr). rewrite E1. cbn [mbind option_bind]. destruct r as [k|]; [|specialize (Hr v0 Hv0); congruence].
  destruct Hr as (v & Hkv & Nv). rewrite (co_vols inf kvs pick M vols c Hc), Hkv. cbn [mbind option_bind]. destruct (neighbours_ok inf kvs pick M vols Hk Hp c Hc Hcap Hh k) as (ns & E2 & _ & F); [by eapply lookup_lt_Some|]. rewrite E2. cbn [mbind option_bind].
  destruct (safety_out_loop_ok inf kvs pick M vols Hk Hp c Hc Hcap Hh p ns) with (s0 := pv_safety_out v (transform (pl_tr v) p)) as (r & E3 & R1 & R2 & R3).
  { intros i K. apply F in K as (_ & a & b & _ & B & _). apply box_lookup_inv in B as (w & B & _). by exists w. }
  assert (v ∈ vols) as Hv' by (by eapply elem_of_list_lookup_2). exists r. split; [done|]. split.
  { intros q Hq. apply (Rle_trans _ _ _ R1). by apply Hs; [|apply Hq|]. }
  split; [destruct R2 as [-> |(i & w & _ & Hw & -> & _)]; [by exists v|exists w; split; [by eapply elem_of_list_lookup_2|done]]|].
  by exists k, ns.
Qed.
Theorem C44_safety_out_outside p : (∀ v, v ∈ vols → pv_inside v p = kOutside) → mu_safety_out kvs c p = Some (- (1)) ∧ ∀ fuel d smax, mu_to_out kvs c fuel p d smax = Some (- (1)).
Proof using Hof.
  start. intros Ho. unfold mu_safety_out, mu_to_out. destruct (component_ok inf kvs pick M vols Hk Hp c Hc Hcap Hh p) as (r & -> & Hr). cbn [mbind option_bind]. destruct r as [k|]; [|done]. destruct Hr as (v & Hv' & N). exfalso. apply N, Ho. by eapply elem_of_list_lookup_2.
Qed.
(** DistanceToIn: the least distance of the components. *)
Theorem C70_to_in p d smax D : distances vols p d smax D → meets vols p d smax D → 0 <= smax <= inf → 0 <= M → smax * kTiny < 1 / 1000 → unreached M p (vnonzero d) (Rmin smax M) →
  (∀ i, (i < length vols)%nat → D i < smax → D i < M) →
  ∃ r, mu_to_in inf kvs M c p d smax = Some r ∧ (∀ i, (i < length vols)%nat → D i < smax → (0 <= D i → r <= D i) ∧ (D i < 0 → r < 0)) ∧
    (r < smax → ∃ i, (i < length vols)%nat ∧ r = D i).
Proof using Hof. start. eapply to_in_ok; eauto. Qed.
(** DistanceToOut. *)
Theorem C70_to_out p d smax L n fuel : vdot d d = 1 → (∀ v u, v ∈ vols → L <= u → ¬ hits v p d u) → deep kEps vols p d smax →
  (n < fuel)%nat → L <= INR n * kEps → (∀ v, v ∈ vols → pv_inside v p ≠ kSurface) → some_comp (λ v, pv_inside v p = kInside) vols →
  ∃ t, mu_to_out kvs c fuel p d smax = Some t ∧ 0 < t ∧ covered kEps vols p d 0 t ∧ left_for_good kEps vols p d t.
Proof using Hof. start. intros. eapply to_out_ok; eauto. Qed.
(** Normal, for components that are not moved. *)
Theorem C70_normal p : (∀ v, v ∈ vols → pl_tr v = tr_one) → some_comp (λ v, pv_inside v p ≠ kOutside) vols →
  ∃ v, v ∈ vols ∧ pv_inside v p ≠ kOutside ∧ mu_normal inf kvs c p = Some (if (facing v p).2 then (facing v p).1 else vzero, (facing v p).2).
Proof using Hof. start. eapply normal_ok; eauto. Qed.
End C44.
Print Assumptions C44_contains.
Print Assumptions C44_inside.
Print Assumptions C44_component.
Print Assumptions C44_extent.
Print Assumptions C44_neighbours.
Print Assumptions C44_safety_in.
Print Assumptions C44_safety_in_inside.
Print Assumptions C44_safety_out.
Print Assumptions C44_safety_out_outside.
Print Assumptions C70_to_in.
Print Assumptions C70_to_out.
Print Assumptions C70_normal.
(** Closing never fails for at least one component. *)
Theorem C44_close : ∀ inf kvs pick M vols, (1 ≤ kvs)%nat → chooses pick → vols ≠ [] → ∃ c, mu_close inf kvs pick M (foldl (mu_add inf) (mu_new inf) vols) = Some c.
Proof. intros inf kvs pick M vols Hk Hp Hv. destruct (close_ok inf kvs pick M vols Hk Hp Hv) as (c & E & _). by exists c. Qed.
Print Assumptions C44_close.
(** Without components there is no structure, and every question reads through a null pointer. *)
Theorem C44_empty_refuted : ∀ inf kvs pick M, ∃ c, mu_close inf kvs pick M (mu_new inf) = Some c ∧
  ∀ p, mu_contains kvs c p = None ∧ mu_inside kvs c p = None ∧ mu_safety_in inf kvs c p = None ∧ mu_safety_out kvs c p = None.
Proof. intros. eexists. split; [reflexivity|]. done. Qed.
Print Assumptions C44_empty_refuted.
(** More components than the fixed arrays hold. *)
Theorem C44_capacity_refuted : ∀ inf kvs pick M vols c p, (1 ≤ kvs)%nat → chooses pick → (20000 < Z.of_nat (length vols))%Z →
  mu_close inf kvs pick M (foldl (mu_add inf) (mu_new inf) vols) = Some c → (∀ v, v ∈ vols → in_interior (abbox_of inf v) p) → mu_contains kvs c p = None.
Proof.
  intros inf kvs pick M vols c p Hk Hp Hn E Hi. assert (vols ≠ []) as Hv by (intros ->; cbn in Hn; lia). destruct (close_ok inf kvs pick M vols Hk Hp Hv) as (c' & E' & Hc). assert (c' = c) as -> by (unfold built in E'; congruence).
  unfold mu_contains. rewrite (candidates_all inf kvs pick M vols Hk Hp c Hc p Hi). unfold in_array. rewrite decide_False; [done|].
  destruct (clusters_ok pick Hp kvs (length vols) Hk) as [P _]; [destruct vols; [done|cbn; lia]|]. rewrite P, seq_length. lia.
Qed.
Print Assumptions C44_capacity_refuted.
(** Boxes are held by their extents. *)
Lemma box_held inf b t : sized b → ortho t → held (Placed t (box_shape inf b)).
Proof.
  intros Hb Ho. split; [done|]. cbn [pl_shape box_shape s_contains s_inside s_extent box_extent fst snd]. intros q H. pose proof kHalfTolerance_pos. assert (kHalfTolerance < 1 / 10000) as Hs by (unfold kHalfTolerance, kTolerance; lra).
  assert (BoxSpec.closed (wider kHalfTolerance b) q) as C.
  { apply outer_le. destruct H as [H|H].
    - unfold box_contains in H. apply rltb_true in H. lra.
    - unfold box_inside in H. cbv zeta in H. destruct (rltb_spec (Rabs (box_outer b q)) kHalfTolerance) as [K|K]; [apply Rabs_def2 in K; lra|]. destruct (rltb_spec (box_outer b q) 0); [lra|done]. }
  unfold BoxSpec.closed, in_box, wider, centred, sized in *. cbn in C. set (cl := λ a x, Rmax (- a) (Rmin a x)).
  assert (∀ a x, 0 <= a → - (a + kHalfTolerance) <= x <= a + kHalfTolerance → - a <= cl a x <= a ∧ - (1 / 10000) < x - cl a x < 1 / 10000) as K.
  { intros a x Ha Hx. unfold cl, Rmax, Rmin. repeat destruct (Rle_dec _ _); lra. }
  destruct (K (vx b) (vx q)) as [K1 K2]; [lra|lra|]. destruct (K (vy b) (vy q)) as [K3 K4]; [lra|lra|]. destruct (K (vz b) (vz q)) as [K5 K6]; [lra|lra|].
  exists (V3 (cl (vx b) (vx q)) (cl (vy b) (vy q)) (cl (vz b) (vz q))). cbn. split; [lra|].
  unfold vdist, vmag. rewrite <- (R_sqrt.sqrt_square (1 / 2000)) by lra. apply sqrt_lt_1_alt. unfold vdot, vsub. cbn.
  assert (∀ x, - (1 / 10000) < x < 1 / 10000 → 0 <= x * x <= 1 / 10000 * (1 / 10000)) as Q.
  { intros x Hx. split; [apply Rle_0_sqr|]. destruct (Rle_or_lt 0 x); [apply Rmult_le_compat; lra|]. replace (x * x) with (- x * - x) by ring. apply Rmult_le_compat; lra. }
  pose proof (Q _ K2). pose proof (Q _ K4). pose proof (Q _ K6). lra.
Qed.
(** A point on the surface of the component that is located first, and deep in another one: the loop ends after the
    first component, because its step is zero. *)
Theorem C70_to_out_refuted : ∃ inf kvs pick M vols c p d, of_components inf kvs pick M vols c ∧ vdot d d = 1 ∧ mu_inside kvs c p = Some kInside ∧
  (∀ u, 0 <= u < 1 → some_hit vols p d u) ∧ ∀ fuel smax, (2 ≤ fuel)%nat → mu_to_out kvs c fuel p d smax = Some 0.
Proof.
  set (b := V3 1 1 1). set (A := Placed tr_one (box_shape 1000 b)). set (B := Placed (tr_translation 1 0 0) (box_shape 1000 b)). set (p := V3 1 0 0). set (d := V3 1 0 0).
  destruct (C44_close 1000 4 pick_first 1000 [A; B]) as (c & E); [lia|apply pick_first_ok|done|]. exists 1000, 4%nat, pick_first, 1000, [A; B], c, p, d.
  assert (of_components 1000 4 pick_first 1000 [A; B] c) as Hof.
  { split; [lia|]. split; [apply pick_first_ok|]. split; [done|]. split; [cbn; lia|]. split; [|done]. intros v [-> | [-> | K%elem_of_nil]%elem_of_cons]%elem_of_cons; [| |done].
    - apply box_held; [unfold sized, b; cbn; lra|apply (proj2 one_ok)].
    - apply box_held; [unfold sized, b; cbn; lra|apply translation_ok]. }
  assert (∀ x, -1 <= x → box_outer b (V3 x 0 0) = Rmax (Rabs x - 1) (-1)) as EO.
  { intros x Hx. unfold box_outer, vmax, b; cbn. rewrite Rabs_R0. unfold Rmax. repeat destruct (Rle_dec _ _); lra. }
  assert (∀ x, 0 <= x → box_outer b (V3 x 0 0) = x - 1) as EO'. { intros x Hx. rewrite EO, Rabs_right, Rmax_left; lra. }
  pose proof kHalfTolerance_pos. assert (kHalfTolerance < 1 / 2) by (unfold kHalfTolerance, kTolerance; lra).
  assert (pv_inside A p = kSurface) as IA. { unfold pv_inside, A. cbn [pl_tr pl_shape box_shape s_inside]. rewrite transform_one. unfold box_inside, p. cbv zeta. rewrite EO' by lra. replace (1 - 1) with 0 by lra. rewrite Rabs_R0. destruct (rltb_spec 0 kHalfTolerance); [done|lra]. }
  assert (pv_inside B p = kInside) as IB. { unfold pv_inside, B. cbn [pl_tr pl_shape box_shape s_inside]. rewrite translate_x. unfold box_inside, p. cbn [vx vy vz]. cbv zeta. rewrite EO' by lra. replace (1 - 1 - 1) with (-1) by lra. rewrite Rabs_left by lra. destruct (rltb_spec (- -1) kHalfTolerance); [lra|]. destruct (rltb_spec (-1) 0); [done|lra]. }
  split; [done|]. split; [unfold vdot, d; cbn; lra|]. split.
  { destruct (C44_inside _ _ _ _ _ _ Hof p) as (r & Er & Ir & _). rewrite Er. f_equal. apply Ir. exists B. split; [right; left|done]. }
  split.
  { intros u Hu. exists B. split; [right; left|]. unfold hits, pv_contains, B. cbn [pl_tr pl_shape box_shape s_contains]. rewrite translate_x. unfold box_contains, along, p, d. cbn. replace (1 + u * 1 - 1) with u by lra. replace (0 + u * 0) with 0 by lra. rewrite EO' by lra. apply rltb_true. lra. }
  intros fuel smax Hf. destruct fuel as [|[|fuel]]; [lia|lia|]. pose proof (of_closed _ _ _ _ _ _ Hof) as Hc. destruct Hof as (Hk & Hp & Hv & Hcap & Hh & _).
  assert (inside_component 4 c p = Some (Some 0%nat)) as EI.
  { unfold inside_component. rewrite (candidates_all 1000 4 pick_first 1000 [A; B] Hk Hp c Hc).
    - unfold in_array. rewrite decide_True by (vm_compute; done). cbn [mbind option_bind]. change (mjoin (clusters 4 pick_first (length [A; B]))) with [0%nat; 1%nat]. cbn [component_loop]. rewrite (co_vols _ _ _ _ _ _ Hc). cbn [lookup list_lookup mbind option_bind]. by rewrite IA.
    - intros v Kv. apply held_box; [by apply Hh|]. right. apply elem_of_cons in Kv as [-> | Kv]; [by rewrite IA|]. apply elem_of_list_singleton in Kv as ->. by rewrite IB. }
  unfold mu_to_out. rewrite EI. cbn [mbind option_bind]. cbn [out_loop]. unfold rgtb. pose proof kTolerance_pos. destruct (rltb_spec kTolerance 1) as [_|K]; [|exfalso; unfold kTolerance in K; lra].
  rewrite (co_vols _ _ _ _ _ _ Hc). cbn [lookup list_lookup mbind option_bind].
  assert (pv_to_out A (transform (pl_tr A) p) (transform_direction (pl_tr A) d) smax = Some 0) as ->.
  { unfold A, pv_to_out. cbn [pl_tr pl_shape box_shape s_to_out]. rewrite transform_one, direction_one. f_equal. unfold box_to_out. cbv zeta. unfold p at 1. rewrite EO' by lra. unfold rgtb. destruct (rltb_spec kHalfTolerance (1 - 1)); [lra|].
    assert (0 < kTiny) by (unfold kTiny; lra). assert (nonzero 0 = kTiny) as N0 by (unfold nonzero; destruct (rltb_spec 0 0); lra). assert (nonzero 1 = 1 + kTiny) as N1 by (unfold nonzero; destruct (rltb_spec 1 0); lra).
    unfold vmin, vmul, vsub, vinv, vnonzero, vsign, d, p, b. cbn [vx vy vz]. rewrite N0, N1. unfold rsign. destruct (rltb_spec 1 0); [lra|]. destruct (rltb_spec 0 0); [lra|].
    replace ((1 * 1 - 1) * (1 / (1 + kTiny))) with 0 by (field; lra). assert (0 < (1 * 1 - 0) * (1 / kTiny)) by (rewrite Rmult_1_r, Rminus_0_r, Rmult_1_l; unfold Rdiv; rewrite Rmult_1_l; by apply Rinv_0_lt_compat). unfold Rmin. repeat destruct (Rle_dec _ _); lra. }
  cbn [mbind option_bind]. cbv zeta. assert (- kEps + (0 + kEps) = 0) as -> by lra.
  destruct (neighbours_ok 1000 4 pick_first 1000 [A; B] Hk Hp c Hc Hcap Hh 0) as (ns & En & _ & F); [cbn; lia|]. rewrite En. cbn [mbind option_bind]. destruct ns as [|n ns]; [done|]. unfold inside_cluster. rewrite En. cbn [mbind option_bind].
  destruct (cluster_loop_ok 1000 4 pick_first 1000 [A; B] Hk Hp c Hc Hcap Hh (vadd p (vscale (0 + kEps) d)) (n :: ns)) as (r & -> & _).
  { intros i K. apply F in K as (_ & x & y & _ & Ly & _). apply box_lookup_inv in Ly as (w & Ly & _). by exists w. }
  cbn [mbind option_bind]. destruct r as [j|]; [|done]. unfold rgtb. destruct (rltb_spec kTolerance 0); [lra|done].
Qed.
Print Assumptions C70_to_out_refuted.
(** Components that are moved: the point is transformed twice. *)
Theorem C70_normal_moved_refuted : ∃ inf kvs pick M v c p, of_components inf kvs pick M [v] c ∧ pv_inside v p = kSurface ∧ facing v p = (V3 1 0 0, true) ∧
  mu_normal inf kvs c p = Some (vzero, false).
Proof.
  set (b := V3 1 1 1). set (A := Placed (tr_translation 10 0 0) (box_shape 1000 b)). set (p := V3 11 0 0).
  destruct (C44_close 1000 4 pick_first 1000 [A]) as (c & E); [lia|apply pick_first_ok|done|]. exists 1000, 4%nat, pick_first, 1000, A, c, p.
  assert (of_components 1000 4 pick_first 1000 [A] c) as Hof.
  { split; [lia|]. split; [apply pick_first_ok|]. split; [done|]. split; [cbn; lia|]. split; [|done]. intros v ->%elem_of_list_singleton. apply box_held; [unfold sized, b; cbn; lra|apply translation_ok]. }
  pose proof kHalfTolerance_pos. assert (kHalfTolerance < 1 / 2) by (unfold kHalfTolerance, kTolerance; lra).
  assert (pv_inside A p = kSurface) as IA.
  { unfold pv_inside, A. cbn [pl_tr pl_shape box_shape s_inside]. rewrite translate_x. unfold box_inside, p. cbn [vx vy vz]. cbv zeta. replace (11 - 10) with 1 by lra.
    assert (box_outer b (V3 1 0 0) = 0) as ->. { unfold box_outer, vmax, b; cbn. rewrite Rabs_right, Rabs_R0 by lra. unfold Rmax. repeat destruct (Rle_dec _ _); lra. } rewrite Rabs_R0. destruct (rltb_spec 0 kHalfTolerance); [done|lra]. }
  split; [done|]. split; [done|]. split.
  - unfold facing, A. cbn [pl_tr pl_shape box_shape s_normal]. rewrite translate_x, translate_back. unfold p. cbn [vx vy vz]. replace (11 - 10) with 1 by lra.
    unfold box_normal. cbv zeta. assert (vabs (vsub (vabs (V3 1 0 0)) b) = V3 0 1 1) as ->. { apply v3_eq; cbn; rewrite ?(Rabs_right 1), ?Rabs_R0 by lra; [replace (1 - 1) with 0 by lra; apply Rabs_R0|rewrite Rabs_left; lra..]. }
    assert (vmin (V3 0 1 1) = 0) as -> by (unfold vmin; cbn; unfold Rmin; repeat destruct (Rle_dec _ _); lra). cbn [vx vy vz].
    destruct (rltb_spec (0 - 0) kHalfTolerance); [|lra]. destruct (rltb_spec (1 - 0) kHalfTolerance); [lra|]. destruct (rltb_spec 0 kHalfTolerance); [|lra]. unfold rsign. destruct (rltb_spec 1 0); [lra|].
    unfold rgtb. match goal with |- context [rltb 1 ?d] => destruct (rltb_spec 1 d) as [K|_]; [unfold vdot in K; cbn in K; lra|done] end.
  - destruct (C44_component _ _ _ _ _ _ Hof p) as (r & Er & Hr). unfold mu_normal. rewrite Er. cbn [mbind option_bind]. destruct r as [k|]; [|specialize (Hr A ltac:(left)); congruence].
    destruct Hr as (v & Hkv & _). assert (k = 0%nat ∧ v = A) as [-> ->] by (destruct k as [|[|k]]; cbn in Hkv; [by injection Hkv as <-|done|done]). cbn [mbind option_bind]. rewrite (co_vols _ _ _ _ _ _ (of_closed _ _ _ _ _ _ Hof)). cbn [lookup list_lookup mbind option_bind].
    unfold pv_normal, A. cbn [pl_tr pl_shape box_shape s_normal]. rewrite !translate_x. unfold p. cbn [vx vy vz]. unfold box_normal. cbv zeta.
    assert (vabs (vsub (vabs (V3 (11 - 10 - 10) 0 0)) b) = V3 8 1 1) as ->. { apply v3_eq; cbn; rewrite ?(Rabs_left (11 - 10 - 10)), ?Rabs_R0 by lra; [rewrite Rabs_right; lra|rewrite Rabs_left; lra..]. }
    assert (vmin (V3 8 1 1) = 1) as -> by (unfold vmin; cbn; unfold Rmin; repeat destruct (Rle_dec _ _); lra). destruct (rltb_spec 1 kHalfTolerance); [lra|done].
Qed.
Print Assumptions C70_normal_moved_refuted.
(** A component may answer with the safety zero, which is never wrong; it is ignored, and the distance to the union is
    overestimated. *)
Theorem C44_safety_in_zero_refuted : ∃ inf kvs pick M v c p q, of_components inf kvs pick M [v] c ∧ safe_in (pl_shape v) (λ q, s_contains (pl_shape v) q = true) ∧ (∀ p, 0 <= s_safety_in (pl_shape v) p) ∧
  pv_contains v q = true ∧ vdist p q = 5 ∧ mu_safety_in inf kvs c p = Some 1000.
Proof.
  set (b := V3 1 1 1). set (s := box_shape 1000 b). set (s' := Shape (s_contains s) (s_inside s) (s_to_in s) (s_to_out s) (λ _, 0) (s_safety_out s) (s_normal s) (s_extent s)). set (A := Placed tr_one s').
  destruct (C44_close 1000 4 pick_first 1000 [A]) as (c & E); [lia|apply pick_first_ok|done|]. exists 1000, 4%nat, pick_first, 1000, A, c, (V3 5 0 0), vzero.
  assert (of_components 1000 4 pick_first 1000 [A] c) as Hof.
  { split; [lia|]. split; [apply pick_first_ok|]. split; [done|]. split; [cbn; lia|]. split; [|done]. intros v ->%elem_of_list_singleton. exact (box_held 1000 b tr_one ltac:(unfold sized, b; cbn; lra) (proj2 one_ok)). }
  pose proof kHalfTolerance_pos. assert (kHalfTolerance < 1 / 2) by (unfold kHalfTolerance, kTolerance; lra).
  assert (pv_contains A vzero = true) as CA. { unfold pv_contains. change (box_contains b (transform tr_one vzero) = true). rewrite transform_one. unfold box_contains. apply rltb_true. unfold box_outer, vmax, b; cbn. rewrite !Rabs_R0. unfold Rmax. repeat destruct (Rle_dec _ _); lra. }
  assert (vdist (V3 5 0 0) vzero = 5) as D5. { unfold vdist, vmag, vdot, vsub. cbn. replace ((5 - 0) * (5 - 0) + (0 - 0) * (0 - 0) + (0 - 0) * (0 - 0)) with (5 * 5) by lra. apply sqrt_square. lra. }
  assert (pv_inside A (V3 5 0 0) = kOutside) as IA.
  { unfold pv_inside. change (box_inside b (transform tr_one (V3 5 0 0)) = kOutside). rewrite transform_one. unfold box_inside. cbv zeta. assert (box_outer b (V3 5 0 0) = 4) as ->. { unfold box_outer, vmax, b; cbn. rewrite Rabs_right, Rabs_R0 by lra. unfold Rmax. repeat destruct (Rle_dec _ _); lra. }
    rewrite Rabs_right by lra. destruct (rltb_spec 4 kHalfTolerance); [lra|]. destruct (rltb_spec 4 0); [lra|done]. }
  split; [done|]. split; [intros x y _ _; cbn; apply sqrt_pos|]. split; [intros x; cbn; lra|]. split; [done|]. split; [done|].
  pose proof (of_closed _ _ _ _ _ _ Hof) as Hc. destruct (C44_component _ _ _ _ _ _ Hof (V3 5 0 0)) as (r & Er & Hr). destruct Hof as (Hk & Hp & Hv & Hcap & Hh & _).
  unfold mu_safety_in. rewrite Er. cbn [mbind option_bind]. destruct r as [k|].
  { destruct Hr as (v & Hkv & N). apply elem_of_list_lookup_2, elem_of_list_singleton in Hkv as ->. congruence. }
  rewrite (safety_none_ok 1000 4 pick_first 1000 [A] Hk Hp c Hc Hcap Hh (V3 5 0 0) (λ _, vzero) 25); [done|lra|cbn; lra|cbn; lra|lra|].
  intros i v Hi. apply elem_of_list_lookup_2, elem_of_list_singleton in Hi as ->. split; [apply held_box; [apply Hh; left|by left]|]. rewrite D5. split; [lra|]. cbn. lra.
Qed.
Print Assumptions C44_safety_in_zero_refuted.
(** Two bars, overlapping: -1 <= x < 1 and 0 <= x < 2. *)
Lemma exit_of (A : R → Prop) lo hi a t : (∀ u, A u ↔ lo <= u < hi) → 0 < t → exit_after A a t → lo <= a ∧ a + t = hi.
Proof.
  intros HA Ht (_ & X2 & X3). assert (A a) as K by (apply X2; lra). apply HA in K. split; [lra|]. destruct (Rtotal_order (a + t) hi) as [L|[L|L]]; [|done|].
  - destruct (X3 (hi - (a + t))) as (u & Hu & N); [lra|]. exfalso. apply N, HA. lra.
  - assert (A (Rmax a hi)) as Q. { apply X2. split; [apply Rmax_l|apply Rmax_lub_lt; lra]. } apply HA in Q. pose proof (Rmax_r a hi). lra.
Qed.
Lemma exit_to (A : R → Prop) lo hi a : (∀ u, A u ↔ lo <= u < hi) → lo <= a <= hi → exit_after A a (hi - a).
Proof. intros HA Ha. split; [lra|]. split; [intros u Hu; apply HA; lra|]. intros e He. exists hi. split; [lra|]. rewrite HA. lra. Qed.
Example C70_example : let A := Placed tr_one (bar 1000 1) in let B := Placed (tr_translation 1 0 0) (bar 1000 1) in let d := V3 1 0 0 in
  ∃ c, of_components 1000 4 pick_first 1000 [A; B] c ∧
    (mu_contains 4 c (V3 (3 / 2) 0 0) = Some true ∧ mu_contains 4 c (V3 (5 / 2) 0 0) = Some false ∧ neighbours c 0 = Some [1%nat]) ∧
    mu_to_in 1000 4 1000 c (V3 (-5) 0 0) d 100 = Some 4 ∧
    ∃ fuel t, mu_to_out 4 c fuel (V3 (-1 / 2) 0 0) d 100 = Some t ∧ 0 < t ∧ covered kEps [A; B] (V3 (-1 / 2) 0 0) d 0 t ∧ left_for_good kEps [A; B] (V3 (-1 / 2) 0 0) d t.
Proof.
  cbv zeta. set (A := Placed tr_one (bar 1000 1)). set (B := Placed (tr_translation 1 0 0) (bar 1000 1)). set (d := V3 1 0 0).
  destruct (C44_close 1000 4 pick_first 1000 [A; B]) as (c & E); [lia|apply pick_first_ok|done|]. exists c.
  assert (∀ t, ortho t → held (Placed t (bar 1000 1))) as Hheld.
  { intros t Ht. split; [done|]. intros q Hq. exists q. assert (s_contains (bar 1000 1) q = true) as K. { destruct Hq as [?|Hq]; [done|]. cbn in *. by destruct (_ && _). }
    cbn in K. rewrite !andb_true_iff, rleb_true, !rltb_true in K. destruct K as [Kx [Ky%Rabs_def2 Kz%Rabs_def2]]. cbn. split; [unfold in_box; cbn; lra|]. unfold vdist, vmag, vdot, vsub. cbn. replace (_ + _) with 0 by ring. rewrite sqrt_0. lra. }
  assert (of_components 1000 4 pick_first 1000 [A; B] c) as Hof.
  { split; [lia|]. split; [apply pick_first_ok|]. split; [done|]. split; [cbn; lia|]. split; [|done]. intros v [-> | [-> | K%elem_of_nil]%elem_of_cons]%elem_of_cons; [| |done]; apply Hheld; [apply one_ok|apply translation_ok]. }
  assert (∀ x, pv_contains A (V3 x 0 0) = true ↔ -1 <= x < 1) as CA.
  { intros x. unfold pv_contains, A. cbn [pl_tr pl_shape]. rewrite transform_one. cbn. rewrite !andb_true_iff, rleb_true, !rltb_true, Rabs_R0. lra. }
  assert (∀ x, pv_contains B (V3 x 0 0) = true ↔ 0 <= x < 2) as CB.
  { intros x. unfold pv_contains, B. cbn [pl_tr pl_shape]. rewrite translate_x. cbn. rewrite !andb_true_iff, rleb_true, !rltb_true, Rabs_R0. lra. }
  assert (∀ v, v ∈ [A; B] → v = A ∨ v = B) as Hcase. { intros v [-> | [-> | K%elem_of_nil]%elem_of_cons]%elem_of_cons; [by left|by right|done]. }
  assert (∀ v q, v ∈ [A; B] → pv_inside v q = if pv_contains v q then kInside else kOutside) as HI by (intros v q [-> | ->]%Hcase; done).
  split; [done|]. split.
  { split; [|split].
    - destruct (C44_contains _ _ _ _ _ _ Hof (V3 (3 / 2) 0 0)) as (b & -> & Hb). f_equal. apply Hb. exists B. split; [right; left|]. apply CB. lra.
    - destruct (C44_contains _ _ _ _ _ _ Hof (V3 (5 / 2) 0 0)) as (b & -> & Hb). f_equal. destruct b; [|done]. destruct Hb as [Hb _]. destruct (Hb eq_refl) as (v & [-> | ->]%Hcase & K); [apply CA in K|apply CB in K]; lra.
    - destruct (C44_neighbours _ _ _ _ _ _ Hof 0) as (ns & -> & N & F & _); [cbn; lia|]. f_equal. assert (∀ j, j ∈ ns ↔ j ∈ [1%nat]) as K.
      { intros j. rewrite F, elem_of_list_singleton. split.
        - intros (Nj & a & b & _ & Lj & _). apply lookup_lt_Some in Lj. cbn in Lj. lia.
        - intros ->. split; [done|]. exists (abbox_of 1000 A), (abbox_of 1000 B). split; [done|]. split; [done|]. assert (in_interior (abbox_of 1000 A) (V3 (1 / 2) 0 0)) as IA. { apply held_box; [apply Hheld, one_ok|]. left. apply CA. lra. }
          assert (in_interior (abbox_of 1000 B) (V3 (1 / 2) 0 0)) as IB. { apply held_box; [apply Hheld, translation_ok|]. left. apply CB. lra. } unfold in_interior, meeting in *. pose proof kTolerance_pos. lra. }
      apply Permutation_singleton_r, NoDup_Permutation; [done|apply NoDup_singleton|done]. }
  assert (kTiny <= 1 / 10 ^ 10) as Tiny by (unfold kTiny; lra). assert (0 < kTiny) as Tiny0 by (unfold kTiny; lra).
  split.
  { set (D := λ i : nat, if (i =? 0)%nat then 4 else 5). assert (∀ i v, [A; B] !! i = Some v → (i = 0%nat ∧ v = A) ∨ (i = 1%nat ∧ v = B)) as Hi. { intros [|[|i]] v K; cbn in K; [injection K as <-; by left|injection K as <-; by right|done]. }
    assert (pv_to_in A (V3 (-5) 0 0) d 100 = Some 4) as TA. { unfold pv_to_in, A. cbn [pl_tr pl_shape]. rewrite transform_one. cbn. f_equal. destruct (rltb_spec (-5) (- (1))); lra. }
    assert (pv_to_in B (V3 (-5) 0 0) d 100 = Some 5) as TB. { unfold pv_to_in, B. cbn [pl_tr pl_shape]. rewrite translate_x. cbn. f_equal. destruct (rltb_spec (-5 - 1) (- (1))); lra. }
    destruct (C70_to_in _ _ _ _ _ _ Hof (V3 (-5) 0 0) d 100 D) as (r & Er & R1 & R2).
    - intros i v [[-> ->]|[-> ->]]%Hi; [exists 4|exists 5]; (split; [done|]); unfold D; cbn; lra.
    - intros i v [[-> ->]|[-> ->]]%Hi _; unfold D, put, A, B; cbn [pl_tr pl_shape Nat.eqb]; rewrite ?transform_one, ?translate_x; unfold in_box, along, d; cbn; lra.
    - lra.
    - lra.
    - lra.
    - apply far_unreached; [lra|apply Rmin_r| |cbn; rewrite Rabs_left; lra|cbn; rewrite Rabs_R0; lra|cbn; rewrite Rabs_R0; lra]. assert (nonzero 0 = kTiny) as N0 by (unfold nonzero; destruct (rltb_spec 0 0); lra). assert (nonzero 1 = 1 + kTiny) as N1 by (unfold nonzero; destruct (rltb_spec 1 0); lra).
      unfold vdot, vnonzero, d. cbn [vx vy vz]. rewrite N0, N1. assert ((1 + kTiny) * (1 + kTiny) <= (1 + 1 / 10 ^ 10) * (1 + 1 / 10 ^ 10)) by (apply Rmult_le_compat; lra). assert (kTiny * kTiny <= 1 / 10 ^ 10 * (1 / 10 ^ 10)) by (apply Rmult_le_compat; lra). lra.
    - intros i Hi' _. unfold D. destruct (i =? 0)%nat; lra.
    - rewrite Er. f_equal. assert (r <= 4) by (apply (R1 0%nat); [cbn; lia|unfold D; cbn; lra|unfold D; cbn; lra]). destruct R2 as (i & Hi' & ->); [lra|]. unfold D in *. destruct (i =? 0)%nat; lra. }
  set (p := V3 (-1 / 2) 0 0). assert (∀ u, along p d u = V3 (-1 / 2 + u) 0 0) as Hal. { intros u. unfold along, p, d. apply v3_eq; cbn; lra. }
  assert (∀ u, hits A p d u ↔ -1 / 2 <= u < 3 / 2) as HA. { intros u. unfold hits. rewrite Hal, CA. lra. }
  assert (∀ u, hits B p d u ↔ 1 / 2 <= u < 5 / 2) as HB. { intros u. unfold hits. rewrite Hal, CB. lra. }
  assert (0 < kEps) as He0 by (unfold kEps, kTolerance; lra). assert (kEps < 1 / 100) as He1 by (unfold kEps, kTolerance; lra). assert (kTolerance < 1 / 100) as Ht1 by (unfold kTolerance; lra).
  destruct (archimed_cor1 (kEps / 3)) as (n & Hn & Hn0); [lra|]. exists (S n).
  assert (3 <= INR n * kEps) as Hbig. { assert (0 < INR n) by (by apply lt_0_INR). assert (/ INR n * INR n < kEps / 3 * INR n) as Q by (by apply Rmult_lt_compat_r). rewrite Rinv_l in Q by lra. lra. }
  apply (C70_to_out _ _ _ _ _ _ Hof p d 100 3 n (S n)).
  - unfold vdot, d. cbn. lra.
  - intros v u [-> | ->]%Hcase Hu; [rewrite HA|rewrite HB]; lra.
  - intros v s Hv Hs Hst Hin. assert (hits v p d s) as Hh. { rewrite HI in Hin by done. unfold hits. by destruct (pv_contains v (along p d s)). }
    split; [done|].
    assert (s = 0 ∨ s = 3 / 2 + kEps ∨ s = 5 / 2 + kEps) as Hs'. { destruct Hst as [?|(w & a & t & [-> | ->]%Hcase & Ha & Ht & X & ->)]; [by left|right; left|right; right]; [apply (exit_of _ _ _ _ _ HA Ht) in X|apply (exit_of _ _ _ _ _ HB Ht) in X]; lra. }
    apply Hcase in Hv as [-> | ->].
    + exists (3 / 2 - s). pose proof Hh as Hr. apply HA in Hr. split; [|split; [apply (exit_to _ (-1 / 2)); [done|lra]|destruct Hs' as [-> |[-> | ->]]; lra]].
      unfold pv_to_out_placed, A. cbn [pl_tr pl_shape]. unfold hits, pv_contains, A in Hh. cbn [pl_tr pl_shape] in Hh. rewrite transform_one, Hal in Hh |- *. cbn in Hh |- *. rewrite Hh. f_equal. lra.
    + exists (5 / 2 - s). pose proof Hh as Hr. apply HB in Hr. split; [|split; [apply (exit_to _ (1 / 2)); [done|lra]|destruct Hs' as [-> |[-> | ->]]; lra]].
      unfold pv_to_out_placed, B. cbn [pl_tr pl_shape]. unfold hits, pv_contains, B in Hh. cbn [pl_tr pl_shape] in Hh. rewrite translate_x, Hal in Hh |- *. cbn in Hh |- *. rewrite Hh. f_equal. lra.
  - lia.
  - done.
  - intros v Hv. rewrite HI by done. by destruct (pv_contains v p).
  - exists A. split; [left|]. rewrite HI by left. assert (pv_contains A p = true) as -> by (apply CA; lra). done.
Qed.
(** SafetyToIn of two boxes. *)
Example C44_safety_example : let A := Placed tr_one (box_shape 1000 (V3 1 1 1)) in let B := Placed (tr_translation 5 0 0) (box_shape 1000 (V3 1 1 1)) in
  ∃ c, of_components 1000 4 pick_first 1000 [A; B] c ∧ mu_safety_in 1000 4 c (V3 2 0 0) = Some 1 ∧ mu_safety_in 1000 4 c vzero = Some (- (1)) ∧ mu_safety_out 4 c vzero = Some 1.
Proof.
  cbv zeta. set (b := V3 1 1 1). set (A := Placed tr_one (box_shape 1000 b)). set (B := Placed (tr_translation 5 0 0) (box_shape 1000 b)).
  destruct (C44_close 1000 4 pick_first 1000 [A; B]) as (c & E); [lia|apply pick_first_ok|done|]. exists c.
  assert (of_components 1000 4 pick_first 1000 [A; B] c) as Hof.
  { split; [lia|]. split; [apply pick_first_ok|]. split; [done|]. split; [cbn; lia|]. split; [|done]. intros v [-> | [-> | K%elem_of_nil]%elem_of_cons]%elem_of_cons; [| |done].
    - apply box_held; [unfold sized, b; cbn; lra|apply one_ok].
    - apply box_held; [unfold sized, b; cbn; lra|apply translation_ok]. }
  assert (∀ v, v ∈ [A; B] → v = A ∨ v = B) as Hcase. { intros v [-> | [-> | K%elem_of_nil]%elem_of_cons]%elem_of_cons; [by left|by right|done]. }
  assert (∀ x, box_outer b (V3 x 0 0) = Rmax (Rabs x - 1) (-1)) as EO.
  { intros x. unfold box_outer, vmax, b; cbn. rewrite Rabs_R0. unfold Rmax. repeat destruct (Rle_dec _ _); lra. }
  assert (∀ x, 0 <= x → box_outer b (V3 x 0 0) = x - 1) as EO'. { intros x Hx. rewrite EO, Rabs_right, Rmax_left; lra. }
  assert (∀ x, x <= 0 → box_outer b (V3 x 0 0) = - x - 1) as EOn. { intros x Hx. rewrite EO. rewrite (Rabs_left1 x) by lra. rewrite Rmax_left; lra. }
  pose proof kHalfTolerance_pos. assert (kHalfTolerance < 1 / 2) by (unfold kHalfTolerance, kTolerance; lra).
  assert (∀ q, kHalfTolerance <= box_outer b q → box_inside b q = kOutside) as IO. { intros q Hq. unfold box_inside. cbv zeta. rewrite Rabs_right by lra. destruct (rltb_spec (box_outer b q) kHalfTolerance); [lra|]. destruct (rltb_spec (box_outer b q) 0); [lra|done]. }
  assert (pv_inside A vzero = kInside) as I0. { unfold pv_inside, A. cbn [pl_tr pl_shape box_shape s_inside]. rewrite transform_one. unfold box_inside, vzero. cbv zeta. rewrite EO' by lra. rewrite Rabs_left by lra. destruct (rltb_spec (- (0 - 1)) kHalfTolerance); [lra|]. destruct (rltb_spec (0 - 1) 0); [done|lra]. }
  split; [done|]. split; [|split].
  - assert (pv_safety_in A (V3 2 0 0) = 1) as SA. { unfold pv_safety_in, A. cbn [pl_tr pl_shape box_shape s_safety_in]. rewrite transform_one. unfold box_safety_in. rewrite EO' by lra. lra. }
    assert (pv_safety_in B (V3 2 0 0) = 2) as SB. { unfold pv_safety_in, B. cbn [pl_tr pl_shape box_shape s_safety_in]. rewrite translate_x. cbn [vx vy vz]. unfold box_safety_in. rewrite EOn by lra. lra. }
    assert (∀ v q, v ∈ [A; B] → pv_contains v q = true → pv_safety_in v (V3 2 0 0) <= vdist (V3 2 0 0) q) as Hlip.
    { intros v q Hv Hq. assert (ortho (pl_tr v)) as Ho. { apply Hcase in Hv as [-> | ->]; [apply one_ok|apply translation_ok]. } rewrite <- (transform_dist (pl_tr v) _ _ Ho).
      assert (pl_shape v = box_shape 1000 b) as Es by (by apply Hcase in Hv as [-> | ->]). unfold pv_contains in Hq. unfold pv_safety_in. rewrite Es in *. cbn [box_shape s_contains s_safety_in] in *. unfold box_contains in Hq. apply rltb_true in Hq. unfold box_safety_in.
      pose proof (outer_lip b (transform (pl_tr v) (V3 2 0 0)) (transform (pl_tr v) q)). lra. }
    destruct (C44_safety_in _ _ _ _ _ _ Hof (V3 2 0 0)) as (r & -> & R0 & (v & Hv & R1) & R2); [lra|cbn; lra|cbn; lra| | |].
    + intros v [-> | ->]%Hcase; unfold pv_inside, A, B; cbn [pl_tr pl_shape box_shape s_inside]; apply IO; rewrite ?transform_one, ?translate_x; cbn [vx vy vz]; [rewrite EO' by lra|rewrite EOn by lra]; lra.
    + intros v Hv. split; [intros q Hq; split; [apply Hcase in Hv as [-> | ->]; lra|by apply Hlip]|]. apply Hcase in Hv as [-> | ->].
      * exists vzero. split; [unfold pv_contains, A; cbn [pl_tr pl_shape box_shape s_contains]; rewrite transform_one; unfold box_contains, vzero; rewrite EO' by lra; apply rltb_true; lra|]. unfold vdist, vmag. rewrite sqrt_sqrt; unfold vdot, vsub; cbn; lra.
      * exists (V3 5 0 0). split; [unfold pv_contains, B; cbn [pl_tr pl_shape box_shape s_contains]; rewrite translate_x; cbn [vx vy vz]; unfold box_contains; rewrite EO' by lra; apply rltb_true; lra|]. unfold vdist, vmag. rewrite sqrt_sqrt; unfold vdot, vsub; cbn; lra.
    + f_equal. apply Hcase in Hv as [-> | ->]; [lra|]. exfalso. assert (r <= 3 / 2); [|lra]. eapply Rle_trans; [apply (R2 A (V3 (1 / 2) 0 0)); [left|]|].
      * unfold pv_contains, A; cbn [pl_tr pl_shape box_shape s_contains]; rewrite transform_one; unfold box_contains; rewrite EO' by lra; apply rltb_true; lra.
      * unfold vdist, vmag, vdot, vsub. cbn. replace (_ + _) with (3 / 2 * (3 / 2)) by lra. rewrite sqrt_square; lra.
  - apply (C44_safety_in_inside _ _ _ _ _ _ Hof). exists A. split; [left|]. by rewrite I0.
  - assert (pv_safety_out A (transform (pl_tr A) vzero) = 1) as SA. { unfold pv_safety_out, A. cbn [pl_tr pl_shape box_shape s_safety_out]. rewrite transform_one, safety_out_neg. unfold vzero. rewrite EO' by lra. lra. }
    assert (pv_inside B vzero = kOutside) as IB. { unfold pv_inside, B. cbn [pl_tr pl_shape box_shape s_inside]. apply IO. rewrite translate_x. cbn [vx vy vz vzero]. rewrite EOn by lra. lra. }
    assert (pv_safety_out B (transform (pl_tr B) vzero) <= 0) as SB. { unfold pv_safety_out, B. cbn [pl_tr pl_shape box_shape s_safety_out]. rewrite translate_x, safety_out_neg. cbn [vx vy vz vzero]. rewrite EOn by lra. lra. }
    pose proof (of_closed _ _ _ _ _ _ Hof) as Hc. pose proof Hof as (Hk & Hp & _ & Hcap & Hh & _).
    unfold mu_safety_out. destruct (C44_component _ _ _ _ _ _ Hof vzero) as (r & -> & Hr). cbn [mbind option_bind]. destruct r as [k|]; [|specialize (Hr A ltac:(left)); congruence].
    destruct Hr as (v & Hkv & N). assert (v ∈ [A; B]) as Hv by (by eapply elem_of_list_lookup_2). rewrite (co_vols _ _ _ _ _ _ Hc), Hkv. cbn [mbind option_bind]. destruct (neighbours_ok 1000 4 pick_first 1000 [A; B] Hk Hp c Hc Hcap Hh k) as (ns & -> & _ & F); [by eapply lookup_lt_Some|]. cbn [mbind option_bind].
    destruct (safety_out_loop_ok 1000 4 pick_first 1000 [A; B] Hk Hp c Hc Hcap Hh vzero ns) with (s0 := pv_safety_out v (transform (pl_tr v) vzero)) as (r & -> & R1 & R2 & _).
    { intros i K. apply F in K as (_ & x & y & _ & Ly & _). apply box_lookup_inv in Ly as (w & Ly & _). by exists w. }
    f_equal. assert (v = A) as -> by (apply Hcase in Hv as [-> | ->]; [done|congruence]). destruct R2 as [-> |(i & w & _ & Hw & R2 & R3)]; [done|]. assert (w ∈ [A; B]) as Hw' by (by eapply elem_of_list_lookup_2). apply Hcase in Hw' as [-> | ->]; [by rewrite R2|]. lra.
Qed.
