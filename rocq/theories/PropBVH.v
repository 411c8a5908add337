(** Boxes and the bounding volume hierarchy: properties C22-C27 and C62. *)
From stdpp Require Import list list_numbers option.
From Coq Require Import Reals ZArith NArith Lia Lra.
From Verif Require Import Real3 AABBModel AABBSpec AABBProofs TransModel BVHModel BVHSpec BVHProofs BVHWalk BVHQuery.
Local Open Scope R_scope.

(** C22.  [d] is any direction without zero component for the functions taking 1/dir. *)
Theorem C22_ray_never_misses :
  ∀ b p d t step, no_zero d → 0 <= t → in_box b (along p d t) →
    (t < step → bhit_inv b p (vinv d) step = true) ∧ bline_inv b p (vinv d) = true ∧
    (bintersection b p (vinv d)).1 <= t <= (bintersection b p (vinv d)).2.
Proof.
  intros b p d t step Hd Ht Hin. split_and!.
  - intros Hs. by apply (hit_complete b p d t).
  - by apply (line_complete b p d t).
  - by apply entry_lower.
  - by apply (exit_upper b p d t).
Qed.
Print Assumptions C22_ray_never_misses.
(** For the functions taking the direction itself the point must be [t * 1e-30] away from the faces. *)
Definition clear_in (b : aabb) (p d : v3) (t : R) : Prop :=
  in_box (grown (V3 (- (t * kTiny)) (- (t * kTiny)) (- (t * kTiny))) b) (along p d t).
Theorem C22_ray_direction_partial :
  ∀ inf b p d t step, 0 <= t → clear_in b p d t →
    (t < step → bhit b p d step = true) ∧ bline b p d = true ∧ (0 < t → bdistance inf b p d <= t).
Proof.
  intros inf b p d t step Ht Hc. pose proof (nonzero_clear b p d t Ht Hc) as Hin. pose proof (vnonzero_nz d) as Hnz. split_and!.
  - intros Hs. by apply (hit_complete b p (vnonzero d) t).
  - by apply (line_complete b p (vnonzero d) t).
  - intros Hp. by apply distance_lower.
Qed.
Print Assumptions C22_ray_direction_partial.
(** Without the clearance a ray in the plane of a maximal face is missed. *)
Theorem C22_face_plane_refuted :
  ¬ ∀ b p d t step, 0 <= t < step → in_box b (along p d t) → bhit b p d step = true.
Proof.
  intros H. set (b := Box (V3 0 0 0) (V3 1 1 1)). set (p := V3 (-1) 1 (1 / 2)). set (d := V3 1 0 0).
  assert (bhit b p d 10 = true) as E.
  { apply (H b p d 1); [lra|]. unfold in_box, along, vadd, vscale, b, p, d. cbn [vx vy vz bmin bmax]. lra. }
  assert (bintersection b p (vinv (vnonzero d)) = bintersection b p (vinv (vnonzero d))) as _ by done.
  unfold bhit, bhit_inv in E. destruct (bintersection b p (vinv (vnonzero d))) as [tmin tmax] eqn:Ei.
  apply andb_prop in E as [E _]. apply andb_prop in E as [E1 E2]. apply rleb_true in E1.
  assert (1 / 2 <= tmin ∧ tmax <= 0) as K; [|lra].
  unfold bintersection in Ei. injection Ei as E3 E4. pose proof kEpsilon_pos as He. pose proof kTiny_pos as Ht.
  assert (nonzero 1 = 1 + kTiny) as N1 by (unfold nonzero; destruct (rltb_spec 1 0); [lra|ring]).
  assert (nonzero 0 = kTiny) as N0 by (unfold nonzero; destruct (rltb_spec 0 0); [lra|ring]).
  assert (kTiny < 1) as Ht1 by (unfold kTiny; lra).
  split.
  - rewrite <- E3. match goal with |- _ <= vmax ?v => set (a := v) end. pose proof (proj1 (vmax_le a (vmax a)) (Rle_refl _)) as (Hx & _).
    assert (1 / 2 <= vx a) as Ha; [|lra]. unfold a, vmul, vsub, vinv, vnonzero, d, b, p. cbn [vx vy vz bmin bmax].
    rewrite N1. replace ((0 - -1) * (1 / (1 + kTiny))) with (/ (1 + kTiny)) by (field; lra).
    replace ((1 - -1) * (1 / (1 + kTiny))) with (2 * / (1 + kTiny)) by (field; lra).
    assert (1 / 2 <= / (1 + kTiny)) by (apply (Rmult_le_reg_l (1 + kTiny)); [lra|]; rewrite Rinv_r by lra; lra).
    destruct (rgtb_spec (/ (1 + kTiny)) (2 * / (1 + kTiny))); lra.
  - rewrite <- E4. match goal with |- vmin ?v * _ <= _ => set (a := v) end. pose proof (proj1 (vmin_ge a (vmin a)) (Rle_refl _)) as (_ & Hy & _).
    assert (vy a = 0) as Ha.
    { unfold a, vmul, vsub, vinv, vnonzero, d, b, p. cbn [vx vy vz bmin bmax]. rewrite N0.
      replace ((1 - 1) * (1 / kTiny)) with 0 by (field; lra). replace ((0 - 1) * (1 / kTiny)) with (- / kTiny) by (field; lra).
      assert (0 < / kTiny) by (by apply Rinv_0_lt_compat). destruct (rgtb_spec (- / kTiny) 0); lra. }
    rewrite Ha in Hy. assert (0 <= - vmin a * (1 + 2 * kEpsilon)) by (apply Rmult_le_pos; lra). lra.
Qed.
Print Assumptions C22_face_plane_refuted.
(** Conversely a reported hit comes within 2 epsilon (relative) of the box. *)
Theorem C22_hit_near_box :
  ∀ b p d step, no_zero d → proper b → bhit_inv b p (vinv d) step = true →
    ∃ t, 0 <= t ∧ (t < step ∨ t = 0) ∧ in_box (grown (vscale (2 * kEpsilon * t) (vabs d)) b) (along p d t).
Proof.
  intros b p d step Hd Hp H. destruct (hit_sound b p d step Hd Hp H) as (t & H1 & H2 & H3 & _). exists t. done.
Qed.
Print Assumptions C22_hit_near_box.
Theorem C22_safety :
  ∀ b p, (∀ q, in_box b q → bsafety b p <= vdist p q) ∧ (bsafety b p <= 0 ↔ in_box b p) ∧
    (∀ q, vdist p q <= - bsafety b p → in_box b q).
Proof. intros b p. split_and!; [apply bsafety_dist|apply bsafety_inside..|apply bsafety_ball]. Qed.
Print Assumptions C22_safety.
Theorem C22_union :
  ∀ a b, (∀ p, in_box a p ∨ in_box b p → in_box (bunion a b) p) ∧
    ∀ c, proper a → proper b → box_le a c → box_le b c → box_le (bunion a b) c.
Proof. intros a b. split; [intros p [H|H]; [by apply union_l|by apply union_r]|apply union_least]. Qed.
Print Assumptions C22_union.
Theorem C22_contains_expand :
  ∀ b p, (bcontains b p = true ↔ in_box b p) ∧
    ∀ s, bsize (bexpand b s) = vadd (bsize b) (V3 s s s) ∧ bcenter (bexpand b s) = bcenter b ∧
      ∀ q, 0 <= s → in_box b p → vdist p q <= s * (1 / 2) → in_box (bexpand b s) q.
Proof.
  intros b p. split; [apply bcontains_spec|]. intros s. destruct (expand_spec b s) as [H1 H2]. split_and!; [done..|].
  intros q. apply expand_in.
Qed.
Print Assumptions C22_contains_expand.
Example C22_example : no_zero (V3 1 2 (-1)) ∧ in_box (Box (V3 0 0 (-1)) (V3 2 2 2)) (along (V3 (-1) (-1) 1) (V3 1 2 (-1)) 1) ∧
  clear_in (Box (V3 0 0 (-1)) (V3 2 2 2)) (V3 (-1) 1 1) (V3 1 0 0) 2 ∧ proper (Box (V3 0 0 (-1)) (V3 2 2 2)).
Proof.
  unfold clear_in, proper, no_zero, in_box, along, grown, vadd, vsub, vscale, kTiny. cbn [vx vy vz bmin bmax]. lra.
Qed.

(** C23.  The split of a range may be any reordering with any pivot. *)
Theorem C23_construction :
  ∀ sp boxes depth b, splits sp → bvh_make sp boxes depth = Some b →
    b_aabbs b = boxes ∧ ∃ d, (S d ≤ 30)%nat ∧ bvh_ok b d.
Proof. intros sp boxes depth b Hsp Hm. destruct (make_ok sp boxes depth b Hsp Hm) as (H1 & d & H2 & H3). split; [done|]. by exists d. Qed.
Print Assumptions C23_construction.
(** It succeeds for one daughter or more with a chosen depth below 30, and with the default depth for two or more. *)
Theorem C23_construction_succeeds :
  ∀ sp boxes depth, splits sp → (1 ≤ length boxes)%nat →
    (depth = 0%Z → (2 ≤ length boxes)%nat ∧ (Z.of_nat (length boxes) < 2 ^ 31)%Z) → (0 ≤ depth < 30)%Z → is_Some (bvh_make sp boxes depth).
Proof. exact make_total. Qed.
Print Assumptions C23_construction_succeeds.
(** The leaves below a node list its range, in order. *)
Inductive leaves (b : bvh) : nat → list (nat * nat) → Prop :=
| leaves_leaf id f l : b_nch b !! id = Some (Z.of_nat (l - f)) → b_off b !! id = Some (Z.of_nat f) → (f ≤ l)%nat → leaves b id [(f, l)]
| leaves_node id ls rs : b_nch b !! id = Some (-1)%Z → leaves b (2 * id + 1)%nat ls → leaves b (2 * id + 2)%nat rs → leaves b id (ls ++ rs).
Definition listed (b : bvh) (ranges : list (nat * nat)) : list nat := ranges ≫= λ '(f, l), slice f l (b_prim b).
Theorem C23_every_daughter_once :
  ∀ b d, bvh_ok b d → ∃ ranges, leaves b 0 ranges ∧ listed b ranges ≡ₚ seq 0 (length (b_aabbs b)).
Proof.
  intros b d (Hp & _ & Ht).
  assert (∀ k id f l, tree_ok b k id f l → ∃ rs, leaves b id rs ∧ listed b rs = slice f l (b_prim b) ∧ (f ≤ l)%nat) as K.
  { induction 1 as [k id f l Hfl Hn Ho _ _|k id f m l Hm _ Hn _ _ (ls & L1 & L2 & L3) _ (rs & R1 & R2 & R3)].
    - exists [(f, l)]. split; [apply leaves_leaf; [done|done|lia]|]. split; [|lia]. cbn. by rewrite app_nil_r.
    - exists (ls ++ rs). split; [by apply leaves_node|]. split; [|lia]. unfold listed in *. rewrite bind_app, L2, R2.
      by rewrite <- slice_split. }
  destruct (K _ _ _ _ Ht) as (rs & H1 & H2 & _). exists rs. split; [done|]. rewrite H2, slice_all. done.
Qed.
Print Assumptions C23_every_daughter_once.
(** One daughter and the default depth takes the logarithm of zero. *)
Theorem C23_single_daughter_refuted : ∀ sp bx, bvh_make sp [bx] 0 = None.
Proof. done. Qed.
Print Assumptions C23_single_daughter_refuted.
Definition halve : splitter := λ _ seg _, (seg, (length seg / 2)%nat).
Example C23_example : splits halve ∧ is_Some (bvh_make halve (replicate 40 (Box (V3 0 0 0) (V3 1 1 1))) 0).
Proof.
  assert (splits halve) as H by (intros boxes seg node; split; [done|]; apply Nat.div_le_upper_bound; lia).
  split; [done|]. apply make_total; [done|rewrite replicate_length; lia..|lia].
Qed.

(** C24.  [cont v p] is the placed daughter's own test, giving the point in its frame. *)
Theorem C24_locate :
  ∀ b d dau p cont excl, bvh_ok b d → length dau = length (b_aabbs b) →
    (∀ v bx q, daughter b dau v bx → cont v p = Some q → in_box bx p) →
    ∃ r, (∀ lim, (S d ≤ lim)%nat → level_locate b dau p cont excl lim = Some r) ∧
      match r with
      | Some (v, q) => v ∈ dau ∧ Some v ≠ excl ∧ cont v p = Some q
      | None => ∀ v, v ∈ dau → Some v ≠ excl → cont v p = None
      end.
Proof.
  intros b d dau p cont excl Hb Hd Hc. unfold level_locate.
  destruct (locate_ok b d Hb dau Hd p (λ v, if bool_decide (Some v = excl) then None else cont v p)) as (r & E & H).
  { intros v bx q Hdv. case_bool_decide; [done|]. by apply Hc. }
  exists r. split; [done|]. destruct r as [[v q]|].
  - destruct H as [H1 H2]. case_bool_decide; done.
  - intros v Hv Hne. specialize (H v Hv). by case_bool_decide.
Qed.
Print Assumptions C24_locate.
Theorem C24_locate_direction :
  ∀ b d dau p tr inside normal dir excl, bvh_ok b d → length dau = length (b_aabbs b) →
    (∀ v bx, daughter b dau v bx → inside v (transform (tr v) p) ≠ kOutside → in_box bx p) →
    let entering v := inside v (transform (tr v) p) = kInside ∨
      (inside v (transform (tr v) p) = kSurface ∧ vdot (normal v (transform (tr v) p)) (transform_direction (tr v) dir) < 0) in
    ∃ r, (∀ lim, (S d ≤ lim)%nat → level_locate_dir b dau p tr inside normal dir excl lim = Some r) ∧
      match r with
      | Some (v, q) => v ∈ dau ∧ Some v ≠ excl ∧ entering v ∧ q = transform (tr v) p
      | None => ∀ v, v ∈ dau → Some v ≠ excl → ¬ entering v
      end.
Proof.
  intros b d dau p tr inside normal dir excl Hb Hd Hc entering. unfold level_locate_dir.
  match goal with |- ∃ r, (∀ lim, _ → locate _ _ _ ?acc lim = _) ∧ _ => set (accept := acc) end.
  assert (∀ v q, accept v = Some q ↔ Some v ≠ excl ∧ entering v ∧ q = transform (tr v) p) as Ha.
  { intros v q. unfold accept, entering. case_bool_decide as He; [naive_solver|].
    destruct (inside v (transform (tr v) p)).
    - naive_solver.
    - destruct (rltb_spec (vdot (normal v (transform (tr v) p)) (transform_direction (tr v) dir)) 0) as [Hr|Hr].
      + naive_solver.
      + split; [done|]. intros (_ & [?|[_ ?]] & _); [done|lra].
    - naive_solver. }
  destruct (locate_ok b d Hb dau Hd p accept) as (r & E & H).
  { intros v bx q Hdv Hacc. apply Ha in Hacc as (_ & He & _). apply (Hc v bx Hdv). destruct He as [->|[-> _]]; done. }
  exists r. split; [done|]. destruct r as [[v q]|].
  - destruct H as [H1 H2]. apply Ha in H2. naive_solver.
  - intros v Hv Hne He. specialize (H v Hv). assert (accept v = Some (transform (tr v) p)); [by apply Ha|congruence].
Qed.
Print Assumptions C24_locate_direction.
(** Daughters filling their boxes meet the containment condition. *)
Example C24_example : ∀ b dau p (bx : N → aabb), (∀ v x, daughter b dau v x → x = bx v) →
  ∀ v x q, daughter b dau v x → (if bcontains (bx v) p then Some p else None) = Some q → in_box x p.
Proof. intros b dau p bx H v x q Hd Hq. rewrite (H v x Hd). apply bcontains_spec. by destruct (bcontains (bx v) p). Qed.

(** C25.  [D v] is the distance to daughter [v] along the ray, -1 from inside; [dti v step] is
    what the daughter answers when asked for a distance below [step]. *)
Definition answers (D : N → R) (dti : N → R → R) : Prop :=
  ∀ v step, (D v < step → dti v step = D v) ∧ (step <= D v → step <= dti v step).
Definition candidate (D : N → R) (last : option N) (v : N) : Prop := ¬ (D v <= 0 ∧ Some v = last).
Theorem C25_nearest_daughter :
  ∀ b d dau p dir D dti last step0 hit0, bvh_ok b d → length dau = length (b_aabbs b) → answers D dti →
    (∀ v bx, daughter b dau v bx → 0 <= D v → clear_in bx p dir (D v)) →
    (∀ v bx, daughter b dau v bx → D v < 0 → D v = -1 ∧ in_interior bx p) → 0 <= step0 →
    ∃ step hit, (∀ lim, (S d ≤ lim)%nat → check_intersections b dau p dir dti last step0 hit0 lim = Some (step, hit)) ∧
      step <= step0 ∧ (∀ v, v ∈ dau → candidate D last v → step <= D v) ∧
      ((step = step0 ∧ hit = hit0) ∨ ∃ v, v ∈ dau ∧ candidate D last v ∧ hit = Some v ∧ step = D v ∧ D v < step0).
Proof.
  intros b d dau p dir D dti last step0 hit0 Hb Hd Hans Hpos Hneg Hs.
  destruct (ray_ok b d Hb dau Hd p dir last D dti) with (step0 := step0) (hit0 := hit0) as (step & hit & H); [| |done|done|by exists step, hit].
  - intros v step Hv. destruct (Hans v step) as [H1 H2]. destruct (rltb_spec (D v) step) as [H|H]; [by apply H1|apply H2; lra].
  - intros v bx Hdv HD. apply nonzero_clear; [done|]. by apply Hpos.
Qed.
Print Assumptions C25_nearest_daughter.
Example C25_example : answers (λ v, if (v =? 1)%N then 2 else 5) (λ v step, if rltb (if (v =? 1)%N then 2 else 5) step then (if (v =? 1)%N then 2 else 5) else step).
Proof. intros v step. split; intros H; destruct (rltb_spec (if (v =? 1)%N then 2 else 5) step); lra. Qed.

(** C26.  [sti v] is SafetyToIn of the daughter. *)
Theorem C26_safety_minimum :
  ∀ b d dau p sti safety0, bvh_ok b d → length dau = length (b_aabbs b) →
    (∀ v bx, daughter b dau v bx → proper bx ∧ bsafety bx p <= sti v) →
    ∃ s, (∀ lim, (S d ≤ lim)%nat → compute_safety b dau p sti safety0 lim = Some s) ∧
      s <= safety0 ∧ (∀ v, v ∈ dau → s <= sti v) ∧ (s = safety0 ∨ ∃ v, v ∈ dau ∧ s = sti v).
Proof.
  intros b d dau p sti safety0 Hb Hd Hc. destruct (safety_ok b d Hb dau Hd p sti) with (safety0 := safety0) as (s & E & H1 & H2 & H3).
  - intros i bx Hx. destruct (have_box b dau Hd i) as (bx' & v & ? & ?); [by eapply lookup_lt_Some|]. eapply Hc. by exists i.
  - exists s. split_and!; [done|done| |done]. intros v Hv. destruct (have_index b dau Hd v Hv) as (i & bx & _ & Hx & Ev).
    assert (daughter b dau v bx) as Hdv by (by exists i). destruct (Hc v bx Hdv). destruct (H2 v bx Hdv); lra.
Qed.
Print Assumptions C26_safety_minimum.
(** With any safe SafetyToIn (not necessarily the box-consistent one) the answer never exceeds the
    distance to a daughter; [In v] is the set of points of daughter [v]. *)
Theorem C26_safety_underestimates :
  ∀ b d dau p sti safety0 (In : N → v3 → Prop), bvh_ok b d → length dau = length (b_aabbs b) →
    (∀ v bx, daughter b dau v bx → proper bx ∧ (∀ q, In v q → in_box bx q ∧ sti v <= vdist p q)) →
    ∃ s, (∀ lim, (S d ≤ lim)%nat → compute_safety b dau p sti safety0 lim = Some s) ∧
      s <= safety0 ∧ (∀ v q, v ∈ dau → In v q → s <= vdist p q) ∧ (s = safety0 ∨ ∃ v, v ∈ dau ∧ s = sti v).
Proof.
  intros b d dau p sti safety0 In Hb Hd Hc. destruct (safety_ok b d Hb dau Hd p sti) with (safety0 := safety0) as (s & E & H1 & H2 & H3).
  - intros i bx Hx. destruct (have_box b dau Hd i) as (bx' & v & ? & ?); [by eapply lookup_lt_Some|]. eapply Hc. by exists i.
  - exists s. split_and!; [done|done| |done]. intros v q Hv Hq. destruct (have_index b dau Hd v Hv) as (i & bx & _ & Hx & Ev).
    assert (daughter b dau v bx) as Hdv by (by exists i). destruct (Hc v bx Hdv) as [_ Hin]. destruct (Hin q Hq) as [Hb1 Hb2].
    pose proof (bsafety_dist bx p q Hb1). destruct (H2 v bx Hdv); lra.
Qed.
Print Assumptions C26_safety_underestimates.
(** A daughter whose SafetyToIn is below its box's value can be skipped: the pruned answer is then larger than the minimum. *)
Theorem C26_minimum_refuted :
  ∃ b d dau p sti safety0, bvh_ok b d ∧ length dau = length (b_aabbs b) ∧
    ∃ s v, compute_safety b dau p sti safety0 32 = Some s ∧ v ∈ dau ∧ sti v < s.
Proof.
  set (bx := Box (V3 0 0 0) (V3 1 1 1)). set (p := V3 5 0 0).
  exists (Bvh [0%nat] [0%Z] [1%Z] [bx] [bx]), 0%nat, [0%N], p, (λ _, 1), 3.
  split.
  { split; [done|]. split; [done|]. apply tree_leaf; [cbn; lia|done|done| |by right].
    exists bx. split; [done|]. intros i (j & Hj & Ej)%elem_of_slice. cbn in Hj, Ej. destruct j; [|lia]. injection Ej as <-.
    exists bx. split; [done|]. by intros q. }
  split; [done|]. exists 3, 0%N. split_and!; [|by apply elem_of_list_singleton|lra].
  assert (rltb (bsafety bx p) 3 = false) as E.
  { apply rltb_false. rewrite bsafety_slabs. unfold bx, p. cbn [vx vy vz bmin bmax].
    match goal with |- _ <= vmax ?a => pose proof (proj1 (vmax_le a (vmax a)) (Rle_refl _)) as (Hx & _) end.
    cbn [vx] in Hx. pose proof (Rmax_r (0 - 5) (5 - 1)). lra. }
  unfold compute_safety, run. cbn. change (mapM (λ i : nat, [0%nat] !! (Z.to_nat 0 + i)%nat) (seq 0 (Z.to_nat 1))) with (Some [0%nat]).
  cbn [mbind option_bind safety_leaf b_aabbs lookup list_lookup]. rewrite E. done.
Qed.
Print Assumptions C26_minimum_refuted.
Example C26_example : ∀ p q, bsafety (Box (V3 0 0 0) (V3 1 1 1)) p <= vdist p q ∨ ¬ in_box (Box (V3 0 0 0) (V3 1 1 1)) q.
Proof.
  intros p q. destruct (bcontains (Box (V3 0 0 0) (V3 1 1 1)) q) eqn:E; [left|right].
  - apply bsafety_dist. by apply bcontains_spec.
  - intros H. apply bcontains_spec in H. congruence.
Qed.

(** C27.  [lim] is the size of the stack; pushing beyond it is [None].  One entry more than the
    depth is enough, whatever the daughters answer: no relation between the answers and the boxes
    is assumed. *)
Theorem C27_stack :
  ∀ b d dau p lim, bvh_ok b d → length dau = length (b_aabbs b) → (S d ≤ lim)%nat →
    (∀ accept, is_Some (locate b dau p accept lim)) ∧
    (∀ dir dti last step hit, is_Some (check_intersections b dau p dir dti last step hit lim)) ∧
    (∀ sti safety, is_Some (compute_safety b dau p sti safety lim)).
Proof.
  intros b d dau p lim Hb Hd Hdep.
  assert (∀ {St} (leaf : St → list nat → option (St * bool)) push s,
    (∀ s prims, (∀ i, i ∈ prims → (i < length (b_aabbs b))%nat) → is_Some (leaf s prims)) →
    (∀ s id bl br, b_nodes b !! (2 * id + 1)%nat = Some bl → b_nodes b !! (2 * id + 2)%nat = Some br →
      ∃ pl pr sw, push s id = Some (if sw : bool then (if pr : bool then [2 * id + 2]%nat else []) ++ (if pl : bool then [2 * id + 1]%nat else [])
            else (if pl then [2 * id + 1]%nat else []) ++ (if pr then [2 * id + 2]%nat else []))) →
    is_Some (run leaf push b lim s)) as K.
  { intros St leaf push s HL HP.
    destruct (run_ok leaf push b d Hb (λ _, True) (λ _ _, True) (λ _, True)) with (s := s) as (s' & stop & E & _); [| |done|].
    - intros s' prims _ Hp. destruct (HL s' prims Hp) as [[s'' stop] E]. exists s'', stop. split; [done|]. by destruct stop.
    - intros s' id bl br _ El Er. destruct (HP s' id bl br El Er) as (pl & pr & sw & E). exists pl, pr, sw. done.
    - rewrite (E lim) by done. by eexists. }
  assert (∀ {A} (o : option (A * bool)), is_Some o → is_Some (r ← o; Some r.1)) as K1 by (intros A o [x ->]; by eexists).
  split_and!.
  - intros accept. apply K1, K.
    + intros _ prims. induction prims as [|i r IH]; intros Hp; [by eexists|]. cbn [locate_leaf].
      destruct (have_box b dau Hd i) as (bx & v & Ex & Ev); [apply Hp; left|]. rewrite Ex, Ev. cbn [mbind option_bind].
      assert (is_Some (locate_leaf b dau p accept r)) by (apply IH; intros j Hj; apply Hp; by right).
      destruct (bcontains bx p); [|done]. destruct (accept v); [by eexists|done].
    + intros s id bl br El Er. exists (bcontains bl p), (bcontains br p), false. unfold locate_push. by rewrite El, Er.
  - intros dir dti last step hit. apply K1, K.
    + intros s prims. revert s. induction prims as [|i r IH]; intros s Hp; [by eexists|]. cbn [ray_leaf].
      destruct (have_box b dau Hd i) as (bx & v & Ex & Ev); [apply Hp; left|]. rewrite Ex, Ev. cbn [mbind option_bind].
      assert (∀ s, is_Some (ray_leaf b dau p (vinv (vnonzero dir)) dti last s r)) as HR by (intros s'; apply IH; intros j Hj; apply Hp; by right).
      destruct (bhit_inv bx p _ s.1); [|done]. destruct (_ && _); done.
    + intros s id bl br El Er. unfold ray_push. rewrite El, Er. cbn [mbind option_bind].
      exists (bhit_inv bl p (vinv (vnonzero dir)) s.1), (bhit_inv br p (vinv (vnonzero dir)) s.1),
        (rltb (bintersection br p (vinv (vnonzero dir))).1 (bintersection bl p (vinv (vnonzero dir))).1). done.
  - intros sti safety. apply K1, K.
    + intros s prims. revert s. induction prims as [|i r IH]; intros s Hp; [by eexists|]. cbn [safety_leaf].
      destruct (have_box b dau Hd i) as (bx & v & Ex & Ev); [apply Hp; left|]. rewrite Ex, Ev. cbn [mbind option_bind].
      assert (∀ s, is_Some (safety_leaf b dau p sti s r)) as HR by (intros s'; apply IH; intros j Hj; apply Hp; by right).
      destruct (rltb _ s); done.
    + intros s id bl br El Er. unfold safety_push. rewrite El, Er. cbn [mbind option_bind].
      exists (rltb (bsafety bl p) s), (rltb (bsafety br p) s), (rltb (bsafety br p) (bsafety bl p)). done.
Qed.
Print Assumptions C27_stack.
(** So the 32 entries are enough for every hierarchy the constructor makes. *)
Theorem C27_stack_32 :
  ∀ sp boxes depth b dau p, splits sp → bvh_make sp boxes depth = Some b → length dau = length boxes →
    (∀ accept, is_Some (locate b dau p accept BVH_MAX_DEPTH)) ∧
    (∀ dir dti last step hit, is_Some (check_intersections b dau p dir dti last step hit BVH_MAX_DEPTH)) ∧
    (∀ sti safety, is_Some (compute_safety b dau p sti safety BVH_MAX_DEPTH)).
Proof.
  intros sp boxes depth b dau p Hsp Hm Hd. destruct (make_ok sp boxes depth b Hsp Hm) as (Hx & d & Hb & Hdep). rewrite <- Hx in Hd.
  apply (C27_stack b d); [done|done|]. unfold BVH_MAX_DEPTH. lia.
Qed.
Print Assumptions C27_stack_32.
Example C27_example : splits halve ∧ is_Some (bvh_make halve (replicate 50 (Box (V3 0 0 0) (V3 1 1 1))) 29).
Proof. split; [apply C23_example|]. apply make_total; [apply C23_example| |lia|lia]. rewrite replicate_length. apply Nat.leb_le. vm_compute. done. Qed.

(** C62.  The three splitting functions, for any std::partition and std::sort. *)
Theorem C62_splitting :
  ∀ part srt, partitions part → sorts srt →
    splits (split_longest_axis part) ∧ splits (split_largest_distance part) ∧ splits (split_sah part srt).
Proof. intros part srt Hp Hs. split_and!; [by apply longest_splits|by apply largest_splits|by apply sah_splits]. Qed.
Print Assumptions C62_splitting.
(** The assertions left <= 1 and right <= 1: no area exceeds the total. *)
Theorem C62_areas :
  ∀ boxes seg l r, (∀ i, proper (box_at boxes i)) → (l, r) ∈ sweep boxes seg →
    0 <= l <= area_right boxes seg ∧ 0 <= r <= area_right boxes seg.
Proof. intros boxes seg l r Hp. by apply sweep_ok. Qed.
Print Assumptions C62_areas.
(** The term meant to prefer balanced splits is the same for every split. *)
Theorem C62_balance_refuted :
  ∀ nobj k k', (k < nobj)%nat → (k' < nobj)%nat → balance nobj k = balance nobj k'.
Proof. intros nobj k k' H H'. by rewrite !balance_const. Qed.
Print Assumptions C62_balance_refuted.
Definition part_list (f : nat → bool) (l : list nat) : list nat * nat :=
  (List.filter f l ++ List.filter (λ x, negb (f x)) l, length (List.filter f l)).
Example C62_example : partitions part_list ∧ sorts (λ _ l, l) ∧ (5, 7) ∈ [(0, 3); (5, 7)].
Proof.
  split; [|split; [by intros lt l|by right; left]].
  intros f l. unfold part_list. cbn [fst snd]. 
  assert (List.filter f l ++ List.filter (λ x, negb (f x)) l ≡ₚ l) as E.
  { induction l as [|x l IH]; [done|]. cbn. destruct (f x); cbn; [by rewrite IH|]. rewrite <- Permutation_middle. by rewrite IH. }
  split_and!; [done| |].
  - rewrite <- E at 2. rewrite app_length. lia.
  - intros i x Hx. destruct (decide (i < length (List.filter f l))%nat) as [Hi|Hi].
    + rewrite lookup_app_l in Hx by done. apply elem_of_list_lookup_2, elem_of_list_In, filter_In in Hx as [_ Hx]. done.
    + rewrite lookup_app_r in Hx by lia. apply elem_of_list_lookup_2, elem_of_list_In, filter_In in Hx as [_ Hx].
      apply negb_true_iff in Hx. rewrite Hx. split; [done|lia].
Qed.
