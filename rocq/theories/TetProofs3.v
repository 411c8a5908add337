(** Proofs about tetrahedra: normals, extent, capacity, samples. *)
From Coq Require Import Reals Lra Lia Bool.
From stdpp Require Import base list option numbers tactics.
From Verif Require Import Real3 BoxModel AABBModel OrbSpec ScaledSpec PlanesModel PlanesSpec PlanesProofs PlanesProofs2 TetModel TetProofs TetProofs2.
Import stdpp.list.
Local Open Scope R_scope.

Lemma vdot_add_l a b w : vdot (vadd a b) w = vdot a w + vdot b w.
Proof. unfold vdot, vadd; cbn; ring. Qed.
Lemma vdot_scale_l k a w : vdot (vscale k a) w = k * vdot a w.
Proof. unfold vdot, vscale; cbn; ring. Qed.
Definition near (p : v3) (pl : plane) : Prop := Rabs (pl_dist pl p) <= kHalfTolerance.
Lemma sum_le p w pls n : (forall pl, In pl pls -> near p pl -> vdot (pl_n pl) w <= 0) -> vdot (foldl (sum_step p) n pls) w <= vdot n w.
Proof.
  revert n. induction pls as [|pl pls IH]; intros n H; cbn; [lra|].
  eapply Rle_trans; [apply IH; intros; apply H; cbn; auto|]. unfold sum_step.
  destruct (rleb_spec (Rabs (pl_dist pl p)) kHalfTolerance) as [Hn|Hn]; [|lra].
  rewrite vdot_add_l. specialize (H pl (or_introl eq_refl) Hn). lra.
Qed.
Lemma sum_lt p w pls n : (forall pl, In pl pls -> near p pl -> vdot (pl_n pl) w < 0) -> (exists pl, In pl pls /\ near p pl) ->
  vdot (foldl (sum_step p) n pls) w < vdot n w.
Proof.
  revert n. induction pls as [|pl pls IH]; intros n H (q & Hq & Hn); [destruct Hq|]. cbn.
  assert (Hle : forall m, vdot (foldl (sum_step p) m pls) w <= vdot m w).
  { intros m. apply sum_le. intros x Hx Hnx. specialize (H x (or_intror Hx) Hnx). lra. }
  unfold sum_step at 2. destruct (rleb_spec (Rabs (pl_dist pl p)) kHalfTolerance) as [Hp|Hp].
  - specialize (Hle (vadd n (pl_n pl))). rewrite vdot_add_l in Hle. specialize (H pl (or_introl eq_refl) Hp). lra.
  - destruct Hq as [->|Hq]; [contradiction|]. apply IH; [intros; apply H; cbn; auto|eauto].
Qed.
Lemma sum_none p pls n : (forall pl, In pl pls -> ~ near p pl) -> foldl (sum_step p) n pls = n.
Proof.
  revert n. induction pls as [|pl pls IH]; intros n H; cbn; [auto|]. rewrite IH by (intros; apply H; cbn; auto).
  unfold sum_step. destruct (rleb_spec (Rabs (pl_dist pl p)) kHalfTolerance) as [Hn|Hn]; [|auto]. exfalso. apply (H pl); cbn; auto.
Qed.
Lemma sum_one p pls pl n : NoDup pls -> In pl pls -> (forall q, In q pls -> near p q <-> q = pl) -> foldl (sum_step p) n pls = vadd n (pl_n pl).
Proof.
  revert n. induction pls as [|x pls IH]; intros n Hnd Hi H; [destruct Hi|]. cbn. apply NoDup_cons in Hnd as [Hnx Hnd].
  unfold sum_step at 2. destruct (rleb_spec (Rabs (pl_dist x p)) kHalfTolerance) as [Hn|Hn].
  - assert (x = pl) as -> by (apply H; cbn; auto). apply sum_none. intros q Hq Hnq. apply (H q) in Hnq; [|cbn; auto]. subst q.
    apply Hnx. apply elem_of_list_In. auto.
  - destruct Hi as [->|Hi]; [exfalso; apply Hn, (H pl); cbn; auto|]. apply IH; auto. intros q Hq. apply H. cbn; auto.
Qed.
Lemma vunit_le kmin v : 0 <= kmin -> vdot v v > 0 -> vdot (vunit kmin v) (vunit kmin v) <= 1 /\ 0 < vdot (vunit kmin v) (vunit kmin v).
Proof.
  intros Hk Hv. unfold vunit.
  assert (ESC : forall k w, vdot (vscale k w) (vscale k w) = k * (k * vdot w w)) by (intros; unfold vdot, vscale; cbn; ring). rewrite ESC.
  assert (Hs : 0 < R_sqrt.sqrt (vdot v v + kmin)) by (apply sqrt_lt_R0; lra). set (k := / R_sqrt.sqrt (vdot v v + kmin)).
  assert (0 < k) by (apply Rinv_0_lt_compat; auto).
  assert (E : k * (k * (vdot v v + kmin)) = 1). { rewrite <- (sqrt_sqrt (vdot v v + kmin)) by lra. unfold k. field. lra. }
  clearbody k. split; [|apply Rmult_lt_0_compat; nra].
  assert (k * (k * vdot v v) <= k * (k * (vdot v v + kmin))); [|lra].
  apply Rmult_le_compat_l; [lra|]. apply Rmult_le_compat_l; lra.
Qed.
Lemma vunit_dot kmin v w : 0 <= kmin -> vdot v v > 0 -> exists k, 0 < k /\ vdot (vunit kmin v) w = k * vdot v w.
Proof.
  intros Hk Hv. exists (/ R_sqrt.sqrt (vdot v v + kmin)). split; [apply Rinv_0_lt_compat, sqrt_lt_R0; lra|]. apply vdot_scale_l.
Qed.
Lemma near_fold p pls st : let r := foldl (near_step p) st pls in
  snd st <= snd r /\ (forall pl, In pl pls -> pl_dist pl p <= snd r) /\ (r = st \/ exists pl, In pl pls /\ r = (pl_n pl, pl_dist pl p)).
Proof.
  revert st. induction pls as [|pl pls IH]; intros st; cbn; [split; [lra|]; split; [intros ? []|auto]|].
  assert (E : near_step p st pl = if rgtb (pl_dist pl p) (snd st) then (pl_n pl, pl_dist pl p) else st) by (destruct st; reflexivity).
  rewrite E. clear E. destruct (rgtb_spec (pl_dist pl p) (snd st)) as [Hg|Hg].
  - destruct (IH (pl_n pl, pl_dist pl p)) as (A & B & C). cbn in A, B, C. split; [lra|]. split; [intros q [<-|Hq]; [lra|auto]|].
    right. destruct C as [C|(q & ? & ?)]; [exists pl; auto|exists q; auto].
  - destruct (IH st) as (A & B & C). cbn in A, B, C. split; [lra|]. split; [intros q [<-|Hq]; [lra|auto]|].
    destruct C as [C|(q & ? & ?)]; [left; auto|right; exists q; auto].
Qed.

Section Tet.
Variables (kmin inf : R) (a b c e : v3).
Hypothesis Hk : 0 <= kmin.
Hypothesis HT : triple a b c e <> 0.
Let t := mk_tet kmin a b c e.
Let mid := vscale (1 / 4) (vadd (vadd a b) (vadd c e)).
Lemma mid_open pl : In pl (tet_planes t) -> pl_dist pl mid < 0.
Proof.
  revert pl. apply tet_plane_cases.
  - destruct (face_spec kmin a b c e Hk HT) as ((g & Hg & E) & _). rewrite E.
    replace (triple a b c mid) with (1 / 4 * triple a b c e) by (unfold mid, triple, vcross, vsub, vadd, vscale, vdot; cbn; field).
    assert (0 < triple a b c e * triple a b c e) by nra. nra.
  - pose proof (cyc1n a b c e HT) as H1. destruct (face_spec kmin b c e a Hk H1) as ((g & Hg & E) & _). rewrite E.
    replace (triple b c e mid) with (1 / 4 * triple b c e a) by (unfold mid, triple, vcross, vsub, vadd, vscale, vdot; cbn; field).
    assert (0 < triple b c e a * triple b c e a) by nra. nra.
  - pose proof (cyc2n a b c e HT) as H1. destruct (face_spec kmin c e a b Hk H1) as ((g & Hg & E) & _). rewrite E.
    replace (triple c e a mid) with (1 / 4 * triple c e a b) by (unfold mid, triple, vcross, vsub, vadd, vscale, vdot; cbn; field).
    assert (0 < triple c e a b * triple c e a b) by nra. nra.
  - pose proof (cyc3n a b c e HT) as H1. destruct (face_spec kmin e a b c Hk H1) as ((g & Hg & E) & _). rewrite E.
    replace (triple e a b mid) with (1 / 4 * triple e a b c) by (unfold mid, triple, vcross, vsub, vadd, vscale, vdot; cbn; field).
    assert (0 < triple e a b c * triple e a b c) by nra. nra.
Qed.
Lemma proj_diff pl p q : vdot (pl_n pl) (vsub q p) = pl_dist pl q - pl_dist pl p.
Proof. unfold pl_dist, vdot, vsub; cbn; ring. Qed.
(** On the surface. *)
Lemma tet_normal_on p : (forall pl, In pl (tet_planes t) -> near p pl -> pl_dist pl p = 0) -> (exists pl, In pl (tet_planes t) /\ near p pl) ->
  exists n, tet_normal inf kmin t p = (n, true) /\ outward (hull4 a b c e) p n /\ 0 < vdot n n <= 1.
Proof.
  intros Hex Hne. unfold tet_normal. set (s := foldl (sum_step p) vzero (tet_planes t)).
  assert (Hout : forall q, hull4 a b c e q -> vdot s (vsub q p) <= 0).
  { intros q Hq. unfold s. replace 0 with (vdot vzero (vsub q p)) by (unfold vdot, vzero; cbn; ring). apply sum_le.
    intros pl Hi Hn. rewrite proj_diff, (Hex pl Hi Hn). apply (tet_hull kmin) in Hq; auto. rewrite cut_iff in Hq. specialize (Hq _ Hi). lra. }
  assert (Hmid : vdot s (vsub mid p) < 0).
  { unfold s. replace 0 with (vdot vzero (vsub mid p)) by (unfold vdot, vzero; cbn; ring). apply sum_lt; auto.
    intros pl Hi Hn. rewrite proj_diff, (Hex pl Hi Hn). pose proof (mid_open pl Hi). lra. }
  assert (Hs : 0 < vdot s s).
  { pose proof (vdot_self_nonneg s). destruct (Req_dec (vdot s s) 0) as [E|E]; [|lra]. exfalso.
    assert (Hm : vmag s = 0) by (unfold vmag; rewrite E; apply sqrt_0).
    pose proof (vdot_le s (vscale (-1) (vsub mid p))) as H1. rewrite Hm in H1.
    replace (vdot s (vscale (-1) (vsub mid p))) with (- vdot s (vsub mid p)) in H1 by (unfold vdot, vscale; cbn; ring). lra. }
  clearbody s. destruct (rgtb_spec (vdot s s) 1) as [H1|H1].
  - destruct (vunit_le kmin s Hk ltac:(lra)) as [U1 U2]. destruct (rgtb_spec (vdot (vunit kmin s) (vunit kmin s)) 0); [|lra].
    exists (vunit kmin s). split; [auto|]. split; [|lra]. intros q Hq. destruct (vunit_dot kmin s (vsub q p) Hk ltac:(lra)) as (k & Hkp & ->).
    specialize (Hout q Hq). nra.
  - destruct (rgtb_spec (vdot s s) 0); [|lra]. exists s. split; [auto|]. split; [exact Hout|lra].
Qed.
Lemma tet_normal_face p pl : NoDup (tet_planes t) -> In pl (tet_planes t) -> (forall q, In q (tet_planes t) -> near p q <-> q = pl) ->
  tet_normal inf kmin t p = (pl_n pl, true).
Proof.
  intros Hnd Hi H. unfold tet_normal. rewrite (sum_one p (tet_planes t) pl) by auto.
  replace (vadd vzero (pl_n pl)) with (pl_n pl) by (apply v3_eq; cbn; ring).
  pose proof (tet_short kmin a b c e Hk HT) as Sh. rewrite short_iff in Sh. specialize (Sh _ Hi).
  pose proof (tet_normals_pos kmin a b c e Hk HT _ Hi).
  destruct (rgtb_spec (vdot (pl_n pl) (pl_n pl)) 1); [lra|]. destruct (rgtb_spec (vdot (pl_n pl) (pl_n pl)) 0); [auto|lra].
Qed.
Lemma tet_normal_off p : (forall pl, In pl (tet_planes t) -> ~ near p pl /\ - inf < pl_dist pl p) ->
  exists pl, In pl (tet_planes t) /\ tet_normal inf kmin t p = (pl_n pl, false) /\ forall q, In q (tet_planes t) -> pl_dist q p <= pl_dist pl p.
Proof.
  intros H. unfold tet_normal. rewrite sum_none by (intros; apply H; auto).
  replace (vdot vzero vzero) with 0 by (unfold vdot, vzero; cbn; ring).
  destruct (rgtb_spec 0 1); [lra|]. replace (vdot vzero vzero) with 0 by (unfold vdot, vzero; cbn; ring).
  destruct (rgtb_spec 0 0); [lra|]. destruct (near_fold p (tet_planes t) (vzero, - inf)) as (A & B & C).
  destruct C as [C|(pl & Hi & C)].
  - exfalso. rewrite C in B. cbn in B. specialize (B (t_p0 t) ltac:(cbn; auto)). destruct (H (t_p0 t) ltac:(cbn; auto)). cbn in *. lra.
  - exists pl. split; [auto|]. rewrite C in *. cbn in *. split; [auto|]. intros q Hq. specialize (B q Hq). lra.
Qed.
(** The four planes differ: each is the only one that is zero at its three vertices and negative at the fourth. *)
Lemma dist_vertex pl : In pl (tet_planes t) -> pl_dist pl a <= 0 /\ pl_dist pl b <= 0 /\ pl_dist pl c <= 0 /\ pl_dist pl e <= 0.
Proof.
  intros Hi. destruct (hull_vertex a b c e) as (Ha & Hb & Hc & He).
  apply (tet_hull kmin) in Ha, Hb, Hc, He; auto. rewrite cut_iff in Ha, Hb, Hc, He. auto.
Qed.
Lemma face_at k' a' b' c' o' : 0 <= k' -> triple a' b' c' o' <> 0 ->
  let pl := face_plane k' a' b' c' o' in pl_dist pl a' = 0 /\ pl_dist pl b' = 0 /\ pl_dist pl c' = 0 /\ pl_dist pl o' < 0.
Proof.
  intros H1 H2 pl. destruct (face_spec k' a' b' c' o' H1 H2) as ((g & Hg & E) & _). fold pl in E. rewrite !E.
  replace (triple a' b' c' a') with 0 by (unfold triple, vcross, vsub, vdot; cbn; ring).
  replace (triple a' b' c' b') with 0 by (unfold triple, vcross, vsub, vdot; cbn; ring).
  replace (triple a' b' c' c') with 0 by (unfold triple, vcross, vsub, vdot; cbn; ring).
  assert (0 < triple a' b' c' o' * triple a' b' c' o') by nra. repeat split; try ring. nra.
Qed.
Lemma tet_nodup : NoDup (tet_planes t).
Proof.
  destruct (face_at kmin a b c e Hk HT) as (A1 & A2 & A3 & A4). destruct (face_at kmin b c e a Hk (cyc1n _ _ _ _ HT)) as (B1 & B2 & B3 & B4).
  destruct (face_at kmin c e a b Hk (cyc2n _ _ _ _ HT)) as (C1 & C2 & C3 & C4). destruct (face_at kmin e a b c Hk (cyc3n _ _ _ _ HT)) as (D1 & D2 & D3 & D4).
  cbn in *. unfold t, mk_tet, tet_planes; cbn.
  set (P0 := face_plane kmin a b c e) in *. set (P1 := face_plane kmin b c e a) in *. set (P2 := face_plane kmin c e a b) in *. set (P3 := face_plane kmin e a b c) in *.
  assert (N01 : P0 <> P1) by (intros E; rewrite E in *; lra). assert (N02 : P0 <> P2) by (intros E; rewrite E in *; lra).
  assert (N03 : P0 <> P3) by (intros E; rewrite E in *; lra). assert (N12 : P1 <> P2) by (intros E; rewrite E in *; lra).
  assert (N13 : P1 <> P3) by (intros E; rewrite E in *; lra). assert (N23 : P2 <> P3) by (intros E; rewrite E in *; lra).
  clearbody P0 P1 P2 P3. repeat constructor; rewrite ?elem_of_cons, ?elem_of_nil; intuition.
Qed.

(** Extent *)
Lemma tet_extent_box p : hull4 a b c e p -> in_box (fst (tet_extent t)) (snd (tet_extent t)) p.
Proof.
  intros Hp. unfold in_box, tet_extent, vmin, vmax; cbn.
  assert (MX : forall x y z w, x <= Rmax (Rmax (Rmax x y) z) w /\ y <= Rmax (Rmax (Rmax x y) z) w /\ z <= Rmax (Rmax (Rmax x y) z) w /\ w <= Rmax (Rmax (Rmax x y) z) w).
  { intros x y z w. pose proof (Rmax_l x y); pose proof (Rmax_r x y); pose proof (Rmax_l (Rmax x y) z); pose proof (Rmax_r (Rmax x y) z);
    pose proof (Rmax_l (Rmax (Rmax x y) z) w); pose proof (Rmax_r (Rmax (Rmax x y) z) w). lra. }
  assert (MN : forall x y z w, Rmin (Rmin (Rmin x y) z) w <= x /\ Rmin (Rmin (Rmin x y) z) w <= y /\ Rmin (Rmin (Rmin x y) z) w <= z /\ Rmin (Rmin (Rmin x y) z) w <= w).
  { intros x y z w. pose proof (Rmin_l x y); pose proof (Rmin_r x y); pose proof (Rmin_l (Rmin x y) z); pose proof (Rmin_r (Rmin x y) z);
    pose proof (Rmin_l (Rmin (Rmin x y) z) w); pose proof (Rmin_r (Rmin (Rmin x y) z) w). lra. }
  assert (G : forall q : v3 -> R, (q = vx \/ q = vy \/ q = vz) -> Rmin (Rmin (Rmin (q a) (q b)) (q c)) (q e) <= q p <= Rmax (Rmax (Rmax (q a) (q b)) (q c)) (q e)).
  { intros q Hq. destruct (MX (q a) (q b) (q c) (q e)) as (? & ? & ? & ?). destruct (MN (q a) (q b) (q c) (q e)) as (? & ? & ? & ?). split.
    - apply Ropp_le_cancel. apply (hull_mono a b c e (λ x, - q x)); auto; try lra.
      intros i j k l _. destruct Hq as [->|[->| ->]]; unfold vadd, vscale; cbn; ring.
    - apply (hull_mono a b c e q); auto. intros i j k l _. destruct Hq as [->|[->| ->]]; unfold vadd, vscale; cbn; ring. }
  repeat split; apply G; auto.
Qed.
Lemma tet_extent_tight lo hi : (forall p, hull4 a b c e p -> in_box lo hi p) ->
  vx lo <= vx (fst (tet_extent t)) /\ vy lo <= vy (fst (tet_extent t)) /\ vz lo <= vz (fst (tet_extent t)) /\
  vx (snd (tet_extent t)) <= vx hi /\ vy (snd (tet_extent t)) <= vy hi /\ vz (snd (tet_extent t)) <= vz hi.
Proof.
  intros H. destruct (hull_vertex a b c e) as (Ha & Hb & Hc & He). apply H in Ha, Hb, Hc, He. unfold in_box in *.
  unfold tet_extent, vmin, vmax; cbn. repeat split; repeat apply Rmin_glb; repeat apply Rmax_lub; lra.
Qed.
(** Capacity: a third of base times height *)
Lemma capacity_triple : calc_capacity a b c e = Rabs (triple a b c e) / 6.
Proof. unfold calc_capacity, triple. f_equal. f_equal. unfold vcross, vsub, vdot; cbn; ring. Qed.
Lemma tet_capacity_base H : 
  (forall q, vdot (vcross (vsub b a) (vsub c a)) (vsub q a) = 0 -> H <= vdist e q) ->
  (exists q, vdot (vcross (vsub b a) (vsub c a)) (vsub q a) = 0 /\ vdist e q = H) ->
  t_volume t = 1 / 3 * half_cross a b c * H.
Proof.
  intros Hlow (q & Hq & HH). unfold t, mk_tet; cbn [t_volume]. rewrite capacity_triple. unfold half_cross.
  set (N := vcross (vsub b a) (vsub c a)) in *.
  assert (ET : triple a b c e = vdot N (vsub e a)) by reflexivity. rewrite ET in *.
  assert (HN : 0 < vmag N).
  { pose proof (vmag_nonneg N). destruct (Req_dec (vmag N) 0) as [E|E]; [|lra]. exfalso.
    pose proof (vdot_le N (vsub e a)) as H1. pose proof (vdot_le N (vscale (-1) (vsub e a))) as H2. rewrite E in *.
    replace (vdot N (vscale (-1) (vsub e a))) with (- vdot N (vsub e a)) in H2 by (unfold vdot, vscale; cbn; ring). lra. }
  pose proof (vmag_sqr N) as HNN.
  assert (Ediff : forall x, vdot N (vsub x a) = 0 -> vdot N (vsub e x) = vdot N (vsub e a)).
  { intros x Hx. replace (vdot N (vsub e x)) with (vdot N (vsub e a) - vdot N (vsub x a)) by (unfold vdot, vsub; cbn; ring). lra. }
  assert (Hge : Rabs (vdot N (vsub e a)) <= vmag N * H).
  { rewrite <- HH, <- (Ediff q Hq). unfold vdist. pose proof (vdot_le N (vsub e q)). pose proof (vdot_le N (vscale (-1) (vsub e q))) as H2.
    replace (vdot N (vscale (-1) (vsub e q))) with (- vdot N (vsub e q)) in H2 by (unfold vdot, vscale; cbn; ring).
    rewrite vmag_scale in H2. replace (Rabs (-1)) with 1 in H2 by (rewrite Rabs_left; lra). rewrite Rmult_1_l in H2. apply Rabs_le. lra. }
  assert (Hle : vmag N * H <= Rabs (vdot N (vsub e a))).
  { set (s := vdot N (vsub e a) / (vmag N * vmag N)). set (f := vsub e (vscale s N)).
    assert (Hf : vdot N (vsub f a) = 0).
    { replace (vdot N (vsub f a)) with (vdot N (vsub e a) - s * vdot N N) by (unfold f, vdot, vscale, vsub; cbn; ring).
      rewrite <- HNN. unfold s. field. lra. }
    specialize (Hlow f Hf). assert (Ed : vdist e f = Rabs s * vmag N).
    { unfold vdist. replace (vsub e f) with (vscale s N) by (apply v3_eq; unfold f, vsub, vscale; cbn; ring). apply vmag_scale. }
    rewrite Ed in Hlow. assert (Es : Rabs s * (vmag N * vmag N) = Rabs (vdot N (vsub e a))).
    { rewrite <- (Rabs_pos_eq (vmag N * vmag N)) by nra. rewrite <- Rabs_mult. f_equal. unfold s. field. lra. }
    rewrite <- Es. nra. }
  assert (E : Rabs (vdot N (vsub e a)) = vmag N * H) by lra. rewrite E. field.
Qed.
(** Sampled points lie on the face they were drawn from. *)
Lemma tet_sample_on r u v : 0 <= u <= 1 -> 0 <= v <= 1 ->
  let '(k, p) := tet_sample t r u v in
  hull4 a b c e p /\ exists pl, tet_planes t !! k = Some pl /\ pl_dist pl p = 0.
Proof.
  intros Hu Hv. unfold tet_sample.
  set (uv := if rgtb (u + v) 1 then (1 - u, 1 - v) else (u, v)).
  assert (Huv : 0 <= fst uv /\ 0 <= snd uv /\ fst uv + snd uv <= 1) by (unfold uv; destruct (rgtb_spec (u + v) 1); cbn; lra).
  destruct uv as [u' v']. cbn in Huv.
  destruct (face_at kmin a b c e Hk HT) as (A1 & A2 & A3 & _). destruct (face_at kmin b c e a Hk (cyc1n _ _ _ _ HT)) as (B1 & B2 & B3 & _).
  destruct (face_at kmin c e a b Hk (cyc2n _ _ _ _ HT)) as (C1 & C2 & C3 & _). destruct (face_at kmin e a b c Hk (cyc3n _ _ _ _ HT)) as (D1 & D2 & D3 & _).
  assert (Mix : forall pl x y z, pl_dist pl x = 0 -> pl_dist pl y = 0 -> pl_dist pl z = 0 ->
     pl_dist pl (vadd (vadd (vscale (1 - u' - v') x) (vscale u' y)) (vscale v' z)) = 0).
  { intros pl x y z Hx Hy Hz. replace (pl_dist pl (vadd (vadd (vscale (1 - u' - v') x) (vscale u' y)) (vscale v' z)))
      with ((1 - u' - v') * pl_dist pl x + u' * pl_dist pl y + v' * pl_dist pl z) by (unfold pl_dist, vdot, vadd, vscale; cbn; ring).
    rewrite Hx, Hy, Hz. ring. }
  assert (Hf : (tet_face t r < 4)%nat).
  { unfold tet_face. repeat match goal with |- context [rleb ?x ?y] => destruct (rleb x y) end; lia. }
  destruct (tet_face t r) as [|[|[|[|k]]]]; [| | | |lia]; cbn.
  - split; [exists (1 - u' - v'), u', v', 0; repeat split; try lra; apply v3_eq; unfold vadd, vscale; cbn; ring|].
    eexists. split; [reflexivity|]. apply Mix; auto.
  - split; [exists 0, (1 - u' - v'), u', v'; repeat split; try lra; apply v3_eq; unfold vadd, vscale; cbn; ring|].
    eexists. split; [reflexivity|]. apply Mix; auto.
  - split; [exists v', 0, (1 - u' - v'), u'; repeat split; try lra; apply v3_eq; unfold vadd, vscale; cbn; ring|].
    eexists. split; [reflexivity|]. apply Mix; auto.
  - split; [exists u', v', 0, (1 - u' - v'); repeat split; try lra; apply v3_eq; unfold vadd, vscale; cbn; ring|].
    eexists. split; [reflexivity|]. apply Mix; auto.
Qed.
End Tet.
