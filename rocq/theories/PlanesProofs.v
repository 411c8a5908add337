(** Proofs about planes: lists of half spaces, classes, safeties and exits. *)
From Coq Require Import Reals Lra Lia Bool.
From stdpp Require Import base list option numbers tactics.
From Verif Require Import Real3 BoxModel AABBModel PlanesModel PlanesSpec.
Import stdpp.list.
Local Open Scope R_scope.

(** The half spaces of a list of planes. *)
Definition halves (pls : list plane) : list (v3 * R) := List.map (λ pl, (pl_n pl, pl_d pl)) pls.
Lemma height_dist pl p : height (pl_n pl) (pl_d pl) p = pl_dist pl p.
Proof. unfold height, pl_dist, vdot. ring. Qed.
Lemma in_halves n d pls : In (n, d) (halves pls) <-> In (Plane n d) pls.
Proof.
  unfold halves. rewrite in_map_iff. split.
  - intros ([n' d'] & E & H). cbn in E. congruence.
  - intros H. exists (Plane n d). auto.
Qed.
Lemma cut_iff pls p : cut (halves pls) p <-> (forall pl, In pl pls -> pl_dist pl p <= 0).
Proof.
  unfold cut, under. split.
  - intros H [n d] Hi. rewrite <- height_dist. apply H, in_halves, Hi.
  - intros H n d Hi. apply in_halves in Hi. specialize (H _ Hi). rewrite <- height_dist in H. exact H.
Qed.
Lemma cut_open_iff pls p : cut_open (halves pls) p <-> (forall pl, In pl pls -> pl_dist pl p < 0).
Proof.
  unfold cut_open. split.
  - intros H [n d] Hi. rewrite <- height_dist. apply H, in_halves, Hi.
  - intros H n d Hi. apply in_halves in Hi. specialize (H _ Hi). rewrite <- height_dist in H. exact H.
Qed.
Lemma short_iff pls : short_normals (halves pls) <-> (forall pl, In pl pls -> vdot (pl_n pl) (pl_n pl) <= 1).
Proof.
  unfold short_normals. split.
  - intros H [n d] Hi. apply (H n d), in_halves, Hi.
  - intros H n d Hi. apply in_halves in Hi. apply (H _ Hi).
Qed.
Lemma unit_iff pls : unit_normals (halves pls) <-> (forall pl, In pl pls -> vdot (pl_n pl) (pl_n pl) = 1).
Proof.
  unfold unit_normals. split.
  - intros H [n d] Hi. apply (H n d), in_halves, Hi.
  - intros H n d Hi. apply in_halves in Hi. apply (H _ Hi).
Qed.
Lemma unit_short H : unit_normals H -> short_normals H.
Proof. intros U n d Hi. rewrite (U n d Hi). lra. Qed.
Lemma steady_iff c pls d : steady c (halves pls) d <-> (forall pl, In pl pls -> pl_proj pl d = 0 \/ c <= Rabs (pl_proj pl d)).
Proof.
  unfold steady, pl_proj. split.
  - intros H [n k] Hi. rewrite vdot_comm. apply (H n k), in_halves, Hi.
  - intros H n k Hi. apply in_halves in Hi. rewrite vdot_comm. apply (H _ Hi).
Qed.
Lemma dist_along pl p d u : pl_dist pl (along p d u) = pl_dist pl p + u * pl_proj pl d.
Proof. unfold pl_dist, pl_proj, along, vdot, vadd, vscale. cbn. ring. Qed.
(** The distance to a plane changes no faster than the point moves. *)
Lemma dist_lip pl p q : vdot (pl_n pl) (pl_n pl) <= 1 -> pl_dist pl p - pl_dist pl q <= vdist p q.
Proof.
  intros H. replace (pl_dist pl p - pl_dist pl q) with (vdot (vsub p q) (pl_n pl)) by (unfold pl_dist, vdot, vsub; cbn; ring).
  pose proof (vdot_le (vsub p q) (pl_n pl)) as C. unfold vdist.
  assert (vmag (pl_n pl) <= 1). { apply sqr_le_le; [lra|]. rewrite vmag_sqr. lra. }
  pose proof (vmag_nonneg (vsub p q)). pose proof (vmag_nonneg (pl_n pl)). nra.
Qed.
(** Moving along the normal. *)
Lemma dist_up pl p s : vdot (pl_n pl) (pl_n pl) = 1 -> pl_dist pl (along p (pl_n pl) s) = pl_dist pl p + s.
Proof. intros H. rewrite dist_along. unfold pl_proj. rewrite H. ring. Qed.
Lemma vdist_up pl p s : vdot (pl_n pl) (pl_n pl) = 1 -> 0 <= s -> vdist p (along p (pl_n pl) s) = s.
Proof. intros. apply vdist_along; auto. Qed.

Lemma nz_large x : kAbsorb <= Rabs x -> nz x = x.
Proof. intros. unfold nz. destruct (rgeb_spec (Rabs x) kAbsorb); [auto|exfalso; lra]. Qed.
Lemma kTiny_pos : 0 < kTiny.
Proof. unfold kTiny. apply Rinv_0_lt_compat, pow_lt. lra. Qed.
Lemma kAbsorb_pos : 0 < kAbsorb.
Proof. unfold kAbsorb. apply Rinv_0_lt_compat, pow_lt. lra. Qed.
Lemma nz_zero : nz 0 = kTiny.
Proof.
  unfold nz, nonzero. rewrite Rabs_R0. pose proof kAbsorb_pos. pose proof kTiny_pos.
  destruct (rgeb_spec 0 kAbsorb); [lra|]. destruct (rltb_spec 0 0); lra.
Qed.
Lemma nz_pos x : 0 <= x -> 0 < nz x.
Proof.
  intros. unfold nz, nonzero. pose proof kAbsorb_pos. pose proof kTiny_pos.
  destruct (rgeb_spec (Rabs x) kAbsorb) as [Hg|Hg].
  - rewrite Rabs_pos_eq in Hg by lra. lra.
  - destruct (rltb_spec x 0); lra.
Qed.
Lemma nz_neg x : x < 0 -> nz x < 0.
Proof.
  intros. unfold nz, nonzero. pose proof kAbsorb_pos. pose proof kTiny_pos.
  destruct (rgeb_spec (Rabs x) kAbsorb) as [Hg|Hg]; [lra|]. destruct (rltb_spec x 0); lra.
Qed.

(** Planes::Contains *)
Lemma fold_and (f : plane -> bool) pls b : foldl (λ r pl, r && f pl) b pls = b && forallb f pls.
Proof. revert b. induction pls as [|pl pls IH]; intros b; cbn; [now rewrite andb_true_r|]. rewrite IH. now rewrite andb_assoc. Qed.
Lemma fold_or (f : plane -> bool) pls b : foldl (λ r pl, r || f pl) b pls = b || existsb f pls.
Proof. revert b. induction pls as [|pl pls IH]; intros b; cbn; [now rewrite orb_false_r|]. rewrite IH. now rewrite orb_assoc. Qed.
Lemma contains_convex P p : ps_convex P = true -> planes_contains P p = true <-> cut_open (halves (ps_list P)) p.
Proof.
  intros E. unfold planes_contains. rewrite E, fold_and, andb_true_l, forallb_forall, cut_open_iff.
  split; intros H pl Hi; specialize (H pl Hi); apply rltb_true in H || apply rltb_true; auto.
Qed.
Lemma contains_concave P p : ps_convex P = false -> planes_contains P p = true.
Proof. intros E. unfold planes_contains. rewrite E, fold_or. reflexivity. Qed.

(** Planes::Inside *)
Lemma step_convex_out r d : r <> kOutside -> step_convex r d = kOutside <-> kTolerance < d.
Proof.
  intros Hr. unfold step_convex. pose proof kTolerance_pos.
  destruct (rgtb_spec d kTolerance); cbn; [split; auto|].
  destruct r; cbn; try congruence; destruct (rgtb_spec d (- kTolerance)); split; intros; try congruence; lra.
Qed.
Lemma step_convex_in r d : step_convex r d = kInside <-> r = kInside /\ d <= - kTolerance.
Proof.
  unfold step_convex. pose proof kTolerance_pos.
  destruct (rgtb_spec d kTolerance); cbn; [split; [congruence|intros [? ?]; lra]|].
  destruct r; cbn; destruct (rgtb_spec d (- kTolerance)); split; intros; try congruence; try (destruct_and?; congruence); try (split; [auto|lra]); destruct_and?; lra.
Qed.
Lemma loop_convex_out pls p r : r <> kOutside -> loop_convex r pls p = kOutside <-> exists pl, In pl pls /\ kTolerance < pl_dist pl p.
Proof.
  revert r. induction pls as [|pl pls IH]; intros r Hr; cbn.
  - split; [intros; contradiction|intros (? & [] & _)].
  - destruct (step_convex r (pl_dist pl p)) eqn:E; cbn.
    + rewrite IH by congruence. split.
      * intros (q & Hq & Hd). exists q. auto.
      * intros (q & [<-|Hq] & Hd); [|eauto]. apply (step_convex_out r) in Hd; congruence.
    + rewrite IH by congruence. split.
      * intros (q & Hq & Hd). exists q. auto.
      * intros (q & [<-|Hq] & Hd); [|eauto]. apply (step_convex_out r) in Hd; congruence.
    + apply (step_convex_out r) in E; [|auto]. split; [|auto]. intros _. exists pl. auto.
Qed.
Lemma loop_convex_in pls p r : loop_convex r pls p = kInside <-> r = kInside /\ forall pl, In pl pls -> pl_dist pl p <= - kTolerance.
Proof.
  revert r. induction pls as [|pl pls IH]; intros r; cbn.
  - split; [intros ->; split; [auto|intros ? []]|tauto].
  - destruct (step_convex r (pl_dist pl p)) eqn:E; cbn.
    + rewrite IH. apply step_convex_in in E as [-> E]. split.
      * intros [_ H]. split; auto. intros q [<-|Hq]; auto.
      * intros [_ H]. auto.
    + rewrite IH. split; [intros [? _]; congruence|]. intros [-> H].
      assert (step_convex kInside (pl_dist pl p) = kInside) by (apply step_convex_in; auto). congruence.
    + split; [congruence|]. intros [-> H].
      assert (step_convex kInside (pl_dist pl p) = kInside) by (apply step_convex_in; auto). congruence.
Qed.
Lemma step_concave_in r d : r <> kInside -> step_concave r d = kInside <-> d < - kTolerance.
Proof.
  intros Hr. unfold step_concave. pose proof kTolerance_pos.
  destruct (rltb_spec d (- kTolerance)); cbn; [split; auto|].
  destruct r; cbn; try congruence; destruct (rltb_spec d kTolerance); split; intros; try congruence; lra.
Qed.
Lemma step_concave_out r d : step_concave r d = kOutside <-> r = kOutside /\ kTolerance <= d.
Proof.
  unfold step_concave. pose proof kTolerance_pos.
  destruct (rltb_spec d (- kTolerance)); cbn; [split; [congruence|intros [? ?]; lra]|].
  destruct r; cbn; destruct (rltb_spec d kTolerance); split; intros; try congruence; try (destruct_and?; congruence); try (split; [auto|lra]); destruct_and?; lra.
Qed.
Lemma loop_concave_in pls p r : r <> kInside -> loop_concave r pls p = kInside <-> exists pl, In pl pls /\ pl_dist pl p < - kTolerance.
Proof.
  revert r. induction pls as [|pl pls IH]; intros r Hr; cbn.
  - split; [intros; contradiction|intros (? & [] & _)].
  - destruct (step_concave r (pl_dist pl p)) eqn:E; cbn.
    + apply (step_concave_in r) in E; [|auto]. split; [|auto]. intros _. exists pl. auto.
    + rewrite IH by congruence. split.
      * intros (q & Hq & Hd). exists q. auto.
      * intros (q & [<-|Hq] & Hd); [|eauto]. apply (step_concave_in r) in Hd; congruence.
    + rewrite IH by congruence. split.
      * intros (q & Hq & Hd). exists q. auto.
      * intros (q & [<-|Hq] & Hd); [|eauto]. apply (step_concave_in r) in Hd; congruence.
Qed.
Lemma loop_concave_out pls p r : loop_concave r pls p = kOutside <-> r = kOutside /\ forall pl, In pl pls -> kTolerance <= pl_dist pl p.
Proof.
  revert r. induction pls as [|pl pls IH]; intros r; cbn.
  - split; [intros ->; split; [auto|intros ? []]|tauto].
  - destruct (step_concave r (pl_dist pl p)) eqn:E; cbn.
    + split; [congruence|]. intros [-> H].
      assert (step_concave kOutside (pl_dist pl p) = kOutside) by (apply step_concave_out; auto). congruence.
    + rewrite IH. split; [intros [? _]; congruence|]. intros [-> H].
      assert (step_concave kOutside (pl_dist pl p) = kOutside) by (apply step_concave_out; auto). congruence.
    + rewrite IH. apply step_concave_out in E as [-> E]. split.
      * intros [_ H]. split; auto. intros q [<-|Hq]; auto.
      * intros [_ H]. auto.
Qed.

(** Geometric meaning of distances: deep points, far points. *)
Lemma deep_of_dist pls p e : short_normals (halves pls) -> (forall pl, In pl pls -> pl_dist pl p <= - e) -> deep_in (cut (halves pls)) p e.
Proof.
  intros Hs H q Hq. apply cut_iff. intros pl Hi.
  rewrite short_iff in Hs. pose proof (dist_lip pl q p (Hs _ Hi)). rewrite vdist_comm in H0. specialize (H _ Hi). lra.
Qed.
Lemma clear_of_dist pls p e pl : short_normals (halves pls) -> In pl pls -> e <= pl_dist pl p -> clear_of (cut (halves pls)) p e.
Proof.
  intros Hs Hi H q Hq. rewrite cut_iff in Hq. specialize (Hq _ Hi). rewrite short_iff in Hs.
  pose proof (dist_lip pl p q (Hs _ Hi)). lra.
Qed.
Lemma escapes_of_dist pls p s pl : unit_normals (halves pls) -> In pl pls -> 0 <= s -> - pl_dist pl p <= s -> escapes (cut (halves pls)) p s.
Proof.
  intros Hu Hi Hs H e He. rewrite unit_iff in Hu. set (m := (s + e) / 2). exists (along p (pl_n pl) m).
  assert (0 <= m /\ s < m < e) as (? & ? & ?) by (unfold m; lra).
  rewrite vdist_up by auto. split; [lra|]. intros Hc. rewrite cut_iff in Hc. specialize (Hc _ Hi). rewrite dist_up in Hc by auto. lra.
Qed.

(** Folds that keep a smaller (larger) candidate. *)
Lemma fold_min (c : plane -> Prop) (t : plane -> R) (f : R -> plane -> R) (pls : list plane) (b : R) :
  (forall best pl, In pl pls -> (c pl /\ t pl < best /\ f best pl = t pl) \/ (~ (c pl /\ t pl < best) /\ f best pl = best)) ->
  let r := foldl f b pls in
  r <= b /\ (forall pl, In pl pls -> c pl -> r <= t pl) /\ (r = b \/ exists pl, In pl pls /\ c pl /\ r = t pl).
Proof.
  revert b. induction pls as [|pl pls IH]; intros b Hf; cbn.
  - split; [lra|]. split; [intros ? []|auto].
  - destruct (IH (f b pl)) as (H1 & H2 & H3). { intros best q Hq. apply Hf. now right. }
    cbn in H1, H2, H3. destruct (Hf b pl (or_introl eq_refl)) as [(Hc & Ht & E)|(Hn & E)]; rewrite E in *.
    + split; [lra|]. split.
      * intros q [<-|Hq] Hcq; [lra|auto].
      * right. destruct H3 as [->|(q & ? & ? & ?)]; [exists pl; auto|exists q; auto].
    + split; [lra|]. split.
      * intros q [<-|Hq] Hcq; [|auto]. destruct (Rlt_le_dec (t pl) b); [exfalso; auto|lra].
      * destruct H3 as [->|(q & ? & ? & ?)]; [auto|right; exists q; auto].
Qed.
