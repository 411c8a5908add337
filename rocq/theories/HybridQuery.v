(** The candidate searches of the hybrid structure. *)
From Coq Require Import Reals Lra Lia.
From stdpp Require Import sets list list_numbers option.
From Verif Require Import Real3 AABBModel AABBSpec AABBProofs VoxelModel ABBoxModel ABBoxProofs HybridModel HybridSpec HybridProofs.
Import stdpp.list.
Local Open Scope nat_scope.

Lemma lane_grows lo hi lo' hi' p i : (lo' <= lo → hi <= hi' →
  (corner (rltb i 0) lo' hi' - p) * i <= (corner (rltb i 0) lo hi - p) * i ∧
  (corner (negb (rltb i 0)) lo hi - p) * i <= (corner (negb (rltb i 0)) lo' hi' - p) * i)%R.
Proof.
  intros A B. destruct (rltb_spec i 0) as [H|H]; cbn [corner negb].
  - assert (0 <= (hi' - hi) * (- i))%R by (apply Rmult_le_pos; lra). assert (0 <= (lo - lo') * (- i))%R by (apply Rmult_le_pos; lra). lra.
  - assert (0 <= (hi' - hi) * i)%R by (apply Rmult_le_pos; lra). assert (0 <= (lo - lo') * i)%R by (apply Rmult_le_pos; lra). lra.
Qed.
Lemma kernel2_grows M p inv t1 : (t1 <= M)%R → grows (λ b, rltb (kernel2 M b p inv 0 t1) t1).
Proof.
  intros HM a b W. unfold within in W. destruct W as (Wx & Wy & Wz & Vx & Vy & Vz). rewrite !rltb_true. unfold kernel2.
  destruct (lane_grows _ _ _ _ (vx p) (vx inv) Wx Vx) as [X1 X2]. destruct (lane_grows _ _ _ _ (vy p) (vy inv) Wy Vy) as [Y1 Y2]. destruct (lane_grows _ _ _ _ (vz p) (vz inv) Wz Vz) as [Z1 Z2].
  revert X1 X2 Y1 Y2 Z1 Z2.
  generalize ((corner (rltb (vx inv) 0) (vx (bmin a)) (vx (bmax a)) - vx p) * vx inv)%R as ax. generalize ((corner (rltb (vx inv) 0) (vx (bmin b)) (vx (bmax b)) - vx p) * vx inv)%R as bx.
  generalize ((corner (negb (rltb (vx inv) 0)) (vx (bmin a)) (vx (bmax a)) - vx p) * vx inv)%R as ax'. generalize ((corner (negb (rltb (vx inv) 0)) (vx (bmin b)) (vx (bmax b)) - vx p) * vx inv)%R as bx'.
  generalize ((corner (rltb (vy inv) 0) (vy (bmin a)) (vy (bmax a)) - vy p) * vy inv)%R as ay. generalize ((corner (rltb (vy inv) 0) (vy (bmin b)) (vy (bmax b)) - vy p) * vy inv)%R as by_.
  generalize ((corner (negb (rltb (vy inv) 0)) (vy (bmin a)) (vy (bmax a)) - vy p) * vy inv)%R as ay'. generalize ((corner (negb (rltb (vy inv) 0)) (vy (bmin b)) (vy (bmax b)) - vy p) * vy inv)%R as by'.
  generalize ((corner (rltb (vz inv) 0) (vz (bmin a)) (vz (bmax a)) - vz p) * vz inv)%R as az. generalize ((corner (rltb (vz inv) 0) (vz (bmin b)) (vz (bmax b)) - vz p) * vz inv)%R as bz.
  generalize ((corner (negb (rltb (vz inv) 0)) (vz (bmin a)) (vz (bmax a)) - vz p) * vz inv)%R as az'. generalize ((corner (negb (rltb (vz inv) 0)) (vz (bmin b)) (vz (bmax b)) - vz p) * vz inv)%R as bz'.
  intros bz' az' bz az by' ay' by_ ay bx' ax' bx ax X1 X2 Y1 Y2 Z1 Z2. cbv zeta.
  destruct (rgtb_spec ax ay') as [|A1]; [lra|]. destruct (rgtb_spec ay ax') as [|A2]; [lra|].
  destruct (rgtb_spec (Rmax ax ay) az') as [|A3]; [cbn [orb]; lra|]. destruct (rgtb_spec az (Rmin ax' ay')) as [|A4]; [cbn [orb]; lra|]. cbn [orb].
  destruct (rleb_spec (Rmax (Rmax ax ay) az) (t1 + kTolerance)) as [A5|]; [|cbn [andb negb]; lra].
  destruct (rgtb_spec (Rmin (Rmin ax' ay') az') (0 - kTolerance)) as [A6|]; [|cbn [andb negb]; lra]. cbn [andb negb]. intros A7.
  assert (Rmax bx by_ <= Rmax ax ay)%R as M1 by (apply Rmax_lub; [pose proof (Rmax_l ax ay)|pose proof (Rmax_r ax ay)]; lra).
  assert (Rmin ax' ay' <= Rmin bx' by')%R as M2 by (apply Rmin_glb; [pose proof (Rmin_l ax' ay')|pose proof (Rmin_r ax' ay')]; lra).
  assert (Rmax (Rmax bx by_) bz <= Rmax (Rmax ax ay) az)%R as M3 by (apply Rmax_lub; [pose proof (Rmax_l (Rmax ax ay) az)|pose proof (Rmax_r (Rmax ax ay) az)]; lra).
  assert (Rmin (Rmin ax' ay') az' <= Rmin (Rmin bx' by') bz')%R as M4 by (apply Rmin_glb; [pose proof (Rmin_l (Rmin ax' ay') az')|pose proof (Rmin_r (Rmin ax' ay') az')]; lra).
  destruct (rgtb_spec bx by'); [lra|]. destruct (rgtb_spec by_ bx'); [lra|]. destruct (rgtb_spec (Rmax bx by_) bz'); [lra|]. destruct (rgtb_spec bz (Rmin bx' by')); [lra|]. cbn [orb].
  destruct (rleb_spec (Rmax (Rmax bx by_) bz) (t1 + kTolerance)); [|lra]. destruct (rgtb_spec (Rmin (Rmin bx' by') bz') (0 - kTolerance)); [|lra]. cbn [andb negb]. lra.
Qed.
Lemma kernel2_empty M p inv t1 : (t1 <= M → Rmax t1 kTolerance <= (M + vx p) * Rabs (vx inv))%R → (t1 <= M)%R → rltb (kernel2 M (empty_box M) p inv 0 t1) t1 = false.
Proof.
  intros H HM. specialize (H HM). apply rltb_false. unfold kernel2, empty_box; cbn [bmin bmax vx vy vz].
  assert (∀ s, corner s (- M) (- M) = (- M)%R) as C by (by intros []). rewrite !C. clear C. cbv zeta.
  destruct (rgtb_spec ((- M - vx p) * vx inv) ((- M - vy p) * vy inv)) as [|A1]; [lra|]. destruct (rgtb_spec ((- M - vy p) * vy inv) ((- M - vx p) * vx inv)) as [|A2]; [lra|].
  set (t := ((- M - vx p) * vx inv)%R) in *. set (u := ((- M - vy p) * vy inv)%R) in *. assert (u = t) as -> by lra.
  rewrite Rmax_left, Rmin_left by lra. set (w := ((- M - vz p) * vz inv)%R).
  destruct (rgtb_spec t w) as [|A3]; [cbn [orb]; lra|]. destruct (rgtb_spec w t) as [|A4]; [cbn [orb]; lra|]. cbn [orb]. assert (w = t) as -> by lra.
  rewrite Rmax_left, Rmin_left by lra. destruct (rleb_spec t (t1 + kTolerance)); [|cbn [andb negb]; lra]. destruct (rgtb_spec t (0 - kTolerance)) as [A5|]; [|cbn [andb negb]; lra]. cbn [andb negb].
  pose proof (Rmax_l t1 kTolerance). pose proof (Rmax_r t1 kTolerance). unfold t in *. destruct (Rle_dec 0 (vx inv)).
  - rewrite Rabs_right in H by lra. lra.
  - rewrite Rabs_left in H by lra. lra.
Qed.
Lemma safeties_grow a b p : within a b → (vx (ab_safeties b p) <= vx (ab_safeties a p) ∧ vy (ab_safeties b p) <= vy (ab_safeties a p) ∧ vz (ab_safeties b p) <= vz (ab_safeties a p))%R.
Proof. intros W. rewrite !ab_safeties_eq. cbn [vx vy vz]. unfold within in W. unfold Rmax. repeat destruct (Rle_dec _ _); lra. Qed.
Lemma sqr_mono x y : (0 <= x → x <= y → x * x <= y * y)%R.
Proof. intros. apply Rmult_le_compat; lra. Qed.
Lemma safety_mono a b p : within a b → (ab_safety_sqr b p <= ab_safety_sqr a p)%R.
Proof.
  intros W. destruct (safeties_grow a b p W) as (X & Y & Z). unfold ab_safety_sqr. revert X Y Z. generalize (ab_safeties a p) (ab_safeties b p). intros [ax ay az] [bx by_ bz]. unfold vmax; cbn [vx vy vz]. intros X Y Z.
  assert (∀ x y, (x <= y → (if rgtb x 0 then x * x else 0) <= (if rgtb y 0 then y * y else 0))%R) as S.
  { intros x y H. destruct (rgtb_spec x 0), (rgtb_spec y 0); try lra; [apply sqr_mono; lra|]. pose proof (Rle_0_sqr y). unfold Rsqr in *. lra. }
  pose proof (S _ _ X). pose proof (S _ _ Y). pose proof (S _ _ Z).
  assert (∀ x, (0 <= if rgtb x 0 then x * x else 0)%R) as S0. { intros x. destruct (rgtb_spec x 0); [|lra]. apply Rmult_le_pos; lra. }
  pose proof (S0 ax). pose proof (S0 ay). pose proof (S0 az).
  set (mb := Rmax (Rmax bx by_) bz). set (ma := Rmax (Rmax ax ay) az).
  assert (mb <= ma)%R as Hm. { unfold mb, ma, Rmax. repeat destruct (Rle_dec _ _); lra. }
  assert (- mb * mb <= 0)%R as Nb by (pose proof (Rle_0_sqr mb); unfold Rsqr in *; lra).
  destruct (rgtb bx 0 || rgtb by_ 0 || rgtb bz 0) eqn:Eb; cbn [negb].
  - destruct (rgtb ax 0 || rgtb ay 0 || rgtb az 0) eqn:Ea; cbn [negb]; [lra|]. exfalso. revert Ea Eb. rewrite !orb_true_iff, !orb_false_iff. unfold rgtb. rewrite !rltb_true, !rltb_false. lra.
  - destruct (rgtb ax 0 || rgtb ay 0 || rgtb az 0) eqn:Ea; cbn [negb]; [lra|].
    assert (ma <= 0)%R as Ha. { revert Ea. rewrite !orb_false_iff. unfold rgtb. rewrite !rltb_false. unfold ma, Rmax. repeat destruct (Rle_dec _ _); lra. }
    pose proof (sqr_mono (- ma) (- mb) ltac:(lra) ltac:(lra)). lra.
Qed.
Lemma safety_grows p limit : grows (λ b, rltb (ab_safety_sqr b p) limit).
Proof. intros a b W. rewrite !rltb_true. pose proof (safety_mono a b p W). lra. Qed.
Lemma safety_empty M p : (0 < M + vx p → (M + vx p) * (M + vx p) <= ab_safety_sqr (empty_box M) p)%R.
Proof.
  intros H. unfold ab_safety_sqr. rewrite ab_safeties_eq. unfold empty_box; cbn [bmin bmax vx vy vz].
  assert (∀ x, (0 <= if rgtb x 0 then x * x else 0)%R) as S0. { intros x. destruct (rgtb_spec x 0); [|lra]. apply Rmult_le_pos; lra. }
  assert (Rmax (- M - vx p) (vx p - - M) = M + vx p)%R as -> by (rewrite Rmax_right; lra).
  destruct (rgtb_spec (M + vx p) 0); [|lra]. cbn [orb negb]. pose proof (S0 (Rmax (- M - vy p) (vy p - - M))). pose proof (S0 (Rmax (- M - vz p) (vz p - - M))). lra.
Qed.
Lemma safety_max_empty M p : ((M + vx p) * (M + vx p) <= ab_safety_max_sqr (empty_box M) p)%R.
Proof.
  unfold ab_safety_max_sqr, empty_box, vdot, vadd, vabs, vsub, vscale; cbn [bmin bmax vx vy vz].
  replace (1 / 2 * (- M - - M))%R with 0%R by lra. rewrite !Rplus_0_r. replace (1 / 2 * (- M + - M))%R with (- M)%R by lra.
  assert (∀ x, (Rabs x * Rabs x = x * x)%R) as S. { intros x. rewrite <- Rabs_mult. apply Rabs_right. pose proof (Rle_0_sqr x). unfold Rsqr in *. lra. }
  rewrite !S. pose proof (Rle_0_sqr (vy p - - M)). pose proof (Rle_0_sqr (vz p - - M)). unfold Rsqr in *. lra.
Qed.

(** The search that lowers its limit. *)
Lemma within_interior a b q : within a b → in_interior a q → in_interior b q.
Proof. unfold within, in_interior. lra. Qed.
Lemma interior_box b q : in_interior b q → in_box b q.
Proof. unfold in_interior, in_box. lra. Qed.
Lemma mjoin_app {A} (k l : list (list A)) : mjoin (k ++ l) = mjoin k ++ mjoin l.
Proof. induction k as [|x k IH]; [done|]. cbn [app]. change (x ++ mjoin (k ++ l) = (x ++ mjoin k) ++ mjoin l). by rewrite IH, (assoc_L (++)). Qed.
Section Lowering.
Variables (kvs : nat) (M : R) (boxes : list aabb) (pick : nat → list nat → list nat → nat) (s : structure) (p : v3) (obj : nat → v3) (limit m : R).
Hypothesis Hk : 1 ≤ kvs.
Hypothesis pick_ok : ∀ ci cl set, set ≠ [] → pick ci cl set ∈ set.
Hypothesis Hn : 1 ≤ length boxes.
Hypothesis Hs1 : h_n s = length boxes.
Hypothesis Hs2 : h_nodes s = clusters kvs pick (length boxes).
Hypothesis Hs3 : ∀ e l, l < kvs → h_lane s e l = layout kvs M boxes (h_nodes s) e l.
Hypothesis Hobj : ∀ x b, boxes !! x = Some b → in_interior b (obj x).
Hypothesis Hm : ∀ x, x < length boxes → (m <= vdist p (obj x) * vdist p (obj x))%R.
Hypothesis Hml : (m < limit)%R.
Hypothesis Hp : (0 < M + vx p)%R.
Hypothesis Hfar : (limit <= (M + vx p) * (M + vx p))%R.
Notation tb := (the_box M boxes).
Notation nb := (node_box M boxes).
Definition good (st : R * list (nat * R)) : Prop :=
  (m < st.1 <= limit)%R ∧ ∀ x d, (x, d) ∈ st.2 → x < length boxes ∧ d = ab_safety_sqr (tb x) p.
Definition advanced (st st' : R * list (nat * R)) (xs : list nat) : Prop :=
  good st' ∧ (st.2 ⊆ st'.2) ∧ ∀ x, x ∈ xs → x < length boxes → (vdist p (obj x) * vdist p (obj x) = m)%R → x ∈ st'.2.*1.
Lemma tb_interior x : x < length boxes → in_interior (tb x) (obj x).
Proof. intros H. unfold the_box. apply lookup_lt_is_Some_2 in H as [b Hb]. rewrite Hb. cbn. by apply Hobj. Qed.
Lemma nb_interior c x : x ∈ c → x < length boxes → in_interior (nb c) (obj x).
Proof. intros H Hx. eapply within_interior; [by apply node_box_within|by apply tb_interior]. Qed.
Lemma lower_good b x lim : in_interior b (obj x) → x < length boxes → (m < lim <= limit → m < lower_limit (ab_safety_max_sqr b p) lim <= limit)%R.
Proof. intros Hb Hx L. pose proof (ab_safety_upper_strict b p (obj x) Hb). pose proof (Hm x Hx). unfold lower_limit. destruct (rltb_spec (ab_safety_max_sqr b p) lim); lra. Qed.
Lemma lower_empty lim : (m < lim <= limit → lower_limit (ab_safety_max_sqr (empty_box M) p) lim = lim)%R.
Proof. intros L. pose proof (safety_max_empty M p). unfold lower_limit. destruct (rltb_spec (ab_safety_max_sqr (empty_box M) p) lim); lra. Qed.
Lemma empty_missed lim : (lim <= limit)%R → rltb (ab_safety_sqr (empty_box M) p) lim = false.
Proof. intros L. apply rltb_false. pose proof (safety_empty M p Hp). lra. Qed.
Lemma nearest_hit b x lim : in_interior b (obj x) → (vdist p (obj x) * vdist p (obj x) = m → m < lim)%R → (vdist p (obj x) * vdist p (obj x) = m)%R → rltb (ab_safety_sqr b p) lim = true.
Proof. intros Hb L E. apply rltb_true. pose proof (ab_safety_lower b p (obj x) (interior_box _ _ Hb)). specialize (L E). lra. Qed.
Lemma member c x : c ∈ h_nodes s → x ∈ c → x < length boxes.
Proof. intros Hc Hx. rewrite Hs2 in Hc. pose proof (members_in kvs Hk pick pick_ok (length boxes) c Hn Hc) as F. rewrite Forall_forall in F. by apply F. Qed.

Lemma leaf2_ok g r c lim k j st : r < kvs → h_nodes s !! (kvs * g + r) = Some c → j + k = kvs → length c ≤ kvs → (m < lim <= limit)%R → good st →
  ∃ st', leaf_lanes2 s p (λ j, rltb (ab_safety_sqr (h_lane s ((kvs + 1) * g + r + 1) j) p) lim) ((kvs + 1) * g + r + 1) (kvs * g + r) (seq j k) st = Some st' ∧ advanced st st' (drop j c).
Proof.
  intros Hr Hc. revert j st. induction k as [|k IH]; intros j st Hj Hl Hlim Hst; cbn [leaf_lanes2 seq].
  - exists st. split; [done|]. split; [done|]. split; [done|]. rewrite drop_ge by lia. intros x K. by apply elem_of_nil in K.
  - rewrite Hs3 by lia. rewrite (layout_leaf kvs M boxes Hk) by lia. rewrite Hc. destruct (c !! j) as [x|] eqn:Ex.
    + assert (x < length boxes) as Hx. { apply (member c); [by eapply elem_of_list_lookup_2|by eapply elem_of_list_lookup_2]. }
      destruct (rltb (ab_safety_sqr (tb x) p) lim) eqn:T.
      * cbn [mbind option_bind]. rewrite Ex. cbn [mbind option_bind]. destruct Hst as [G1 G2].
        destruct (IH (S j) (lower_limit (ab_safety_max_sqr (tb x) p) st.1, st.2 ++ [(x, ab_safety_sqr (tb x) p)])) as (st' & E & W1 & W2 & W3); [lia|done|done| |].
        { split; [cbn; by apply (lower_good _ x); [apply tb_interior|..]|]. cbn. intros y d K. apply elem_of_app in K as [K|K]; [by apply G2|]. apply elem_of_list_singleton in K. by injection K as -> ->. }
        exists st'. split; [exact E|]. split; [exact W1|]. cbn in W2. split; [set_solver|]. intros y K. rewrite (drop_S _ _ _ Ex) in K. apply elem_of_cons in K as [->|K]; [|by apply W3].
        intros _ _. apply elem_of_list_fmap. exists (x, ab_safety_sqr (tb x) p). split; [done|]. apply W2. set_solver.
      * destruct (IH (S j) st) as (st' & E & W1 & W2 & W3); [lia|done|done|done|]. exists st'. split; [exact E|]. split; [done|]. split; [done|]. rewrite (drop_S _ _ _ Ex). intros y K L Q.
        apply elem_of_cons in K as [->|K]; [|by apply W3]. exfalso. rewrite (nearest_hit (tb x) x lim) in T; [done|by apply tb_interior|lra|done].
    + rewrite empty_missed by lra. destruct (IH (S j) st) as (st' & E & W1 & W2 & W3); [lia|done|done|done|]. exists st'. split; [exact E|]. split; [done|]. split; [done|].
      apply lookup_ge_None in Ex. rewrite drop_ge by lia. intros y K. by apply elem_of_nil in K.
Qed.
Lemma node2_ok g lim k i st : i + k = kvs → (m < lim <= limit)%R → good st →
  ∃ st', node_lanes2 kvs s p (λ i, rltb (ab_safety_sqr (h_lane s ((kvs + 1) * g) i) p) lim) g (seq i k) st = Some st' ∧ advanced st st' (mjoin (take k (drop (kvs * g + i) (h_nodes s)))).
Proof.
  intros Hi Hlim. revert i st Hi. induction k as [|k IH]; intros i st Hi Hst; cbn [node_lanes2 seq].
  - exists st. split; [done|]. split; [done|]. split; [done|]. intros x K. by apply elem_of_nil in K.
  - rewrite Hs3 by lia. rewrite (layout_node kvs M boxes Hk). destruct (h_nodes s !! (kvs * g + i)) as [c|] eqn:Ec.
    + rewrite (drop_S _ _ _ Ec). cbn [take mjoin list_join]. assert (c ∈ h_nodes s) as Hc by (by eapply elem_of_list_lookup_2).
      destruct (rltb (ab_safety_sqr (nb c) p) lim) eqn:T.
      * pose proof Ec as Lc. apply lookup_lt_Some in Lc. rewrite Hs2, clusters_length in Lc by done.
        rewrite decide_True.
        2:{ rewrite Hs1. pose proof (slots_fit kvs Hk (length boxes) (kvs * g + i) Hn Lc) as F.
            assert ((kvs * g + i) / kvs = g ∧ (kvs * g + i) mod kvs = i) as [X Y]. { split; symmetry; [apply (Nat.div_unique _ _ _ i)|apply (Nat.mod_unique _ _ g)]; lia. } rewrite X, Y in F. lia. }
        assert (length c ≤ kvs) as Hlc. { destruct (clusters_ok pick pick_ok kvs (length boxes) Hk Hn) as [_ F]. rewrite Forall_forall in F. rewrite Hs2 in Hc. apply F in Hc. lia. }
        destruct (leaf2_ok g i c st.1 kvs 0 st) as (s1 & E1 & A1 & A2 & A3); [lia|done|lia|done|by destruct Hst|done|]. rewrite E1. cbn [mbind option_bind]. rewrite drop_0 in A3.
        destruct (IH (S i) s1) as (s2 & E2 & B1 & B2 & B3); [lia|done|]. exists s2. split; [exact E2|]. split; [done|]. split; [set_solver|].
        intros x K L Q. apply elem_of_app in K as [K|K].
        -- specialize (A3 x K L Q). apply elem_of_list_fmap in A3 as (y & -> & Y). apply elem_of_list_fmap. exists y. split; [done|]. by apply B2.
        -- apply B3; [|done..]. rewrite Nat.add_succ_r. exact K.
      * destruct (IH (S i) st) as (s2 & E2 & B1 & B2 & B3); [lia|done|]. exists s2. split; [exact E2|]. split; [done|]. split; [done|]. intros x K L Q. apply elem_of_app in K as [K|K].
        -- exfalso. rewrite (nearest_hit (nb c) x lim) in T; [done|by apply nb_interior|lra|done].
        -- apply B3; [|done..]. rewrite Nat.add_succ_r. exact K.
    + rewrite empty_missed by lra. destruct (IH (S i) st) as (s2 & E2 & B1 & B2 & B3); [lia|done|]. exists s2. split; [exact E2|]. split; [done|]. split; [done|].
      apply lookup_ge_None in Ec. rewrite drop_ge by lia. rewrite take_nil. intros x K. by apply elem_of_nil in K.
Qed.
Lemma limit_good g k i lim : i + k = kvs → (m < lim <= limit)%R → (m < foldl (λ lim i, lower_limit (ab_safety_max_sqr (h_lane s ((kvs + 1) * g) i) p) lim) lim (seq i k) <= limit)%R.
Proof.
  revert i lim. induction k as [|k IH]; intros i lim Hi L; cbn [foldl seq]; [done|]. apply IH; [lia|]. rewrite Hs3 by lia. rewrite (layout_node kvs M boxes Hk).
  destruct (h_nodes s !! (kvs * g + i)) as [c|] eqn:Ec; [|by rewrite lower_empty]. assert (c ∈ h_nodes s) as Hc by (by eapply elem_of_list_lookup_2).
  destruct (clusters_ok pick pick_ok kvs (length boxes) Hk Hn) as [_ F]. rewrite Forall_forall in F. rewrite <- Hs2 in F. pose proof (F c Hc) as Lc. destruct c as [|x c]; [cbn in Lc; lia|].
  assert (x < length boxes) as Hx by (apply (member (x :: c)); [done|left]). apply (lower_good _ x); [apply nb_interior; [left|done]|done|done].
Qed.
Lemma groups2_ok k g st : good st → ∃ st', all_groups2 kvs s p (seq g k) st = Some st' ∧ advanced st st' (mjoin (take (kvs * k) (drop (kvs * g) (h_nodes s)))).
Proof.
  revert g st. induction k as [|k IH]; intros g st Hst; cbn [all_groups2 seq].
  - exists st. split; [done|]. split; [done|]. split; [done|]. rewrite Nat.mul_0_r. intros x K. by apply elem_of_nil in K.
  - cbv zeta. destruct Hst as [G1 G2]. pose proof (limit_good g kvs 0 st.1 ltac:(lia) G1) as L.
    set (lim := foldl _ st.1 (seq 0 kvs)) in *. clearbody lim.
    destruct (node2_ok g lim kvs 0 (lim, st.2)) as (s1 & E1 & A1 & A2 & A3); [lia|done|done|]. rewrite E1. cbn [mbind option_bind]. rewrite Nat.add_0_r in A3. cbn in A2.
    destruct (IH (S g) s1 A1) as (s2 & E2 & B1 & B2 & B3). exists s2. split; [exact E2|]. split; [done|]. split; [set_solver|]. intros x K Lx Q.
    replace (kvs * S k) with (kvs + kvs * k) in K by lia. rewrite <- take_take_drop in K. rewrite mjoin_app in K. apply elem_of_app in K as [K|K].
    + specialize (A3 x K Lx Q). apply elem_of_list_fmap in A3 as (y & -> & Y). apply elem_of_list_fmap. exists y. split; [done|]. by apply B2.
    + apply B3; [|done..]. rewrite drop_drop in K. replace (kvs * S g) with (kvs * g + kvs) by lia. exact K.
Qed.
Theorem lowering_ok : ∃ l, safety_candidates2 kvs s p limit = Some l ∧ (∀ x d, (x, d) ∈ l → ∃ b, boxes !! x = Some b ∧ d = ab_safety_sqr b p) ∧
  ∀ x, x < length boxes → (vdist p (obj x) * vdist p (obj x) = m)%R → x ∈ l.*1.
Proof.
  unfold safety_candidates2. destruct (groups2_ok (ceil_div (vector_size kvs (h_n s)) (kvs + 1)) 0 (limit, [])) as (st & E & [_ G2] & _ & G3).
  { split; [cbn; lra|]. cbn. intros x d K. by apply elem_of_nil in K. }
  rewrite E. exists st.2. split; [done|]. split.
  - intros x d K. apply G2 in K as [Hx ->]. unfold the_box. apply lookup_lt_is_Some_2 in Hx as [b Hb]. rewrite Hb. eauto.
  - intros x Hx Q. apply G3; [|done..]. rewrite Nat.mul_0_r, drop_0, take_ge.
    + destruct (clusters_ok pick pick_ok kvs (length boxes) Hk Hn) as [P _]. rewrite Hs2, P. apply elem_of_seq. lia.
    + rewrite Hs1, Hs2, clusters_length by done. unfold vector_size. set (f := first_level kvs (length boxes)). destruct (ceil_div_spec f kvs Hk) as [A B].
      assert (1 ≤ f) as Hf. { destruct (first_level_spec kvs (length boxes) Hk Hn) as [? _]. done. } destruct (B Hf) as [B1 B2].
      rewrite (ceil_unique _ (kvs + 1) (ceil_div f kvs)); [lia|lia|lia|].
      set (G := ceil_div f kvs) in *. replace (kvs + 1) with (S kvs) by lia. rewrite Nat.mul_succ_r. lia.
Qed.
End Lowering.
