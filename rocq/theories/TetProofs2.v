(** Proofs about tetrahedra: queries. *)
From Coq Require Import Reals Lra Lia Bool.
From stdpp Require Import base list option numbers tactics.
From Verif Require Import Real3 BoxModel AABBModel OrbSpec ScaledSpec PlanesModel PlanesSpec PlanesProofs PlanesProofs2 TetModel TetProofs.
Import stdpp.list.
Local Open Scope R_scope.

Lemma max_dist_le t p x : max_dist t p <= x <-> forall pl, In pl (tet_planes t) -> pl_dist pl p <= x.
Proof.
  unfold max_dist. split.
  - intros H pl [<-|[<-|[<-|[<-|[]]]]];
    pose proof (Rmax_l (Rmax (Rmax (pl_dist (t_p0 t) p) (pl_dist (t_p1 t) p)) (pl_dist (t_p2 t) p)) (pl_dist (t_p3 t) p));
    pose proof (Rmax_r (Rmax (Rmax (pl_dist (t_p0 t) p) (pl_dist (t_p1 t) p)) (pl_dist (t_p2 t) p)) (pl_dist (t_p3 t) p));
    pose proof (Rmax_l (Rmax (pl_dist (t_p0 t) p) (pl_dist (t_p1 t) p)) (pl_dist (t_p2 t) p));
    pose proof (Rmax_r (Rmax (pl_dist (t_p0 t) p) (pl_dist (t_p1 t) p)) (pl_dist (t_p2 t) p));
    pose proof (Rmax_l (pl_dist (t_p0 t) p) (pl_dist (t_p1 t) p)); pose proof (Rmax_r (pl_dist (t_p0 t) p) (pl_dist (t_p1 t) p)); lra.
  - intros H. repeat apply Rmax_lub; apply H; cbn; auto.
Qed.
Lemma max_dist_at t p : exists pl, In pl (tet_planes t) /\ max_dist t p = pl_dist pl p.
Proof.
  unfold max_dist, Rmax.
  repeat match goal with |- context [Rle_dec ?x ?y] => destruct (Rle_dec x y) end;
  first [exists (t_p0 t); split; [cbn; tauto|reflexivity]|exists (t_p1 t); split; [cbn; tauto|reflexivity]
        |exists (t_p2 t); split; [cbn; tauto|reflexivity]|exists (t_p3 t); split; [cbn; tauto|reflexivity]].
Qed.

(** Distances within a hull. *)
Lemma vdist_mix i j k l a b c e q : 0 <= i -> 0 <= j -> 0 <= k -> 0 <= l -> i + j + k + l = 1 ->
  vdist q (vadd (vadd (vscale i a) (vscale j b)) (vadd (vscale k c) (vscale l e))) <=
  i * vdist q a + j * vdist q b + k * vdist q c + l * vdist q e.
Proof.
  intros Hi Hj Hk Hl Hs. unfold vdist.
  replace (vsub q (vadd (vadd (vscale i a) (vscale j b)) (vadd (vscale k c) (vscale l e))))
    with (vadd (vadd (vscale i (vsub q a)) (vscale j (vsub q b))) (vadd (vscale k (vsub q c)) (vscale l (vsub q e)))).
  2: { apply v3_eq; unfold vadd, vscale, vsub; cbn; replace i with (1 - j - k - l) by lra; ring. }
  pose proof (vmag_add (vadd (vscale i (vsub q a)) (vscale j (vsub q b))) (vadd (vscale k (vsub q c)) (vscale l (vsub q e)))).
  pose proof (vmag_add (vscale i (vsub q a)) (vscale j (vsub q b))). pose proof (vmag_add (vscale k (vsub q c)) (vscale l (vsub q e))).
  rewrite !vmag_scale, !Rabs_pos_eq in * by auto. lra.
Qed.
Lemma hull_within a b c e q L x : vdist q a <= L -> vdist q b <= L -> vdist q c <= L -> vdist q e <= L -> hull4 a b c e x -> vdist q x <= L.
Proof.
  intros Ha Hb Hc He (i & j & k & l & Hi & Hj & Hk & Hl & Hs & ->). eapply Rle_trans; [apply vdist_mix; auto|].
  replace L with (i * L + j * L + k * L + l * L) by (replace i with (1 - j - k - l) by lra; ring).
  repeat apply Rplus_le_compat; apply Rmult_le_compat_l; auto.
Qed.
Lemma hull_mono a b c e (Q : v3 -> R) x : (forall i j k l, i + j + k + l = 1 ->
   Q (vadd (vadd (vscale i a) (vscale j b)) (vadd (vscale k c) (vscale l e))) = i * Q a + j * Q b + k * Q c + l * Q e) ->
  forall m, Q a <= m -> Q b <= m -> Q c <= m -> Q e <= m -> hull4 a b c e x -> Q x <= m.
Proof.
  intros HQ m Ha Hb Hc He (i & j & k & l & Hi & Hj & Hk & Hl & Hs & ->). rewrite HQ by auto.
  replace m with (i * m + j * m + k * m + l * m) by (replace i with (1 - j - k - l) by lra; ring).
  repeat apply Rplus_le_compat; apply Rmult_le_compat_l; auto.
Qed.
Lemma hull_vertex a b c e : hull4 a b c e a /\ hull4 a b c e b /\ hull4 a b c e c /\ hull4 a b c e e.
Proof.
  split; [exists 1, 0, 0, 0|split; [exists 0, 1, 0, 0|split; [exists 0, 0, 1, 0|exists 0, 0, 0, 1]]];
  (split; [lra|split; [lra|split; [lra|split; [lra|split; [lra|]]]]]; apply v3_eq; unfold vadd, vscale; cbn; ring).
Qed.

(** Deep points are strictly under every plane. *)
Lemma deep_open pls q r : (forall pl, In pl pls -> 0 < vdot (pl_n pl) (pl_n pl) <= 1) -> 0 < r -> deep_in (cut (halves pls)) q r ->
  forall pl, In pl pls -> pl_dist pl q < 0.
Proof.
  intros Hn Hr Hd pl Hi. specialize (Hn _ Hi). specialize (Hd (along q (pl_n pl) r)).
  assert (Hm : vmag (pl_n pl) <= 1) by (apply sqr_le_le; [lra|rewrite vmag_sqr; lra]).
  assert (Hq : vdist q (along q (pl_n pl) r) <= r).
  { unfold vdist, along. replace (vsub q (vadd q (vscale r (pl_n pl)))) with (vscale (- r) (pl_n pl)) by (apply v3_eq; cbn; ring).
    rewrite vmag_scale, Rabs_Ropp, Rabs_pos_eq by lra. pose proof (vmag_nonneg (pl_n pl)). nra. }
  specialize (Hd Hq). rewrite cut_iff in Hd. specialize (Hd _ Hi). rewrite dist_along in Hd. unfold pl_proj in Hd. nra.
Qed.

(** Distance to out *)
Lemma stays_of_min pls p d D : cut (halves pls) p ->
  (forall pl, In pl pls -> 0 < pl_proj pl d -> D <= - pl_dist pl p / pl_proj pl d) ->
  forall u, 0 <= u <= D -> cut (halves pls) (along p d u).
Proof.
  intros Hp Hmin u Hu. rewrite cut_iff in Hp. apply cut_iff. intros pl Hi. rewrite dist_along. specialize (Hp _ Hi).
  destruct (Rlt_le_dec 0 (pl_proj pl d)) as [Hc|Hc]; [|nra].
  specialize (Hmin _ Hi Hc). assert (u * pl_proj pl d <= - pl_dist pl p); [|lra].
  apply (Rmult_le_compat_r (pl_proj pl d)) in Hmin; [|lra].
  replace (- pl_dist pl p / pl_proj pl d * pl_proj pl d) with (- pl_dist pl p) in Hmin by (field; lra). nra.
Qed.
Lemma fold_max_dist inf t p : (forall pl, In pl (tet_planes t) -> pl_dist pl p <= kHalfTolerance) -> 0 < inf ->
  foldl (λ s pl, Rmax s (pl_dist pl p)) (- inf) (tet_planes t) <= kHalfTolerance.
Proof.
  intros H Hi. pose proof kHalfTolerance_pos. cbn. repeat apply Rmax_lub; try (apply H; cbn; auto); lra.
Qed.
Lemma fold_max_dist' inf t p : forall pl, In pl (tet_planes t) -> pl_dist pl p <= foldl (λ s pl, Rmax s (pl_dist pl p)) (- inf) (tet_planes t).
Proof.
  intros pl [<-|[<-|[<-|[<-|[]]]]]; cbn;
  match goal with |- _ <= Rmax (Rmax (Rmax (Rmax ?x ?a) ?b) ?c) ?d =>
    pose proof (Rmax_r x a); pose proof (Rmax_l (Rmax x a) b); pose proof (Rmax_r (Rmax x a) b);
    pose proof (Rmax_l (Rmax (Rmax x a) b) c); pose proof (Rmax_r (Rmax (Rmax x a) b) c);
    pose proof (Rmax_l (Rmax (Rmax (Rmax x a) b) c) d); pose proof (Rmax_r (Rmax (Rmax (Rmax x a) b) c) d); lra end.
Qed.
(** Far beyond every body of interest. *)
Definition reach : R := 10 ^ 20.
Lemma reach_tiny x : kHalfTolerance <= x -> reach < x / kTiny.
Proof.
  intros H. unfold reach, kTiny, Rdiv. rewrite Rinv_inv. unfold kHalfTolerance, kTolerance in H.
  assert (E : 10 ^ 30 = 10 ^ 20 * 10 ^ 10) by (rewrite <- pow_add; reflexivity). rewrite E.
  assert (0 < 10 ^ 20) by (apply pow_lt; lra). assert (1 < x * 10 ^ 10) by lra. nra.
Qed.

Section Rays.
Variables (kmin inf : R) (a b c e : v3).
Hypothesis Hk : 0 <= kmin.
Hypothesis HT : triple a b c e <> 0.
Hypothesis Hinf : reach < inf.
Let t := mk_tet kmin a b c e.
Lemma out_fold p d : let r := foldl (out_step p d) inf (tet_planes t) in
  r <= inf /\ (forall pl, In pl (tet_planes t) -> 0 < nz (pl_proj pl d) -> r <= - pl_dist pl p / nz (pl_proj pl d)) /\
  (r = inf \/ exists pl, In pl (tet_planes t) /\ 0 < nz (pl_proj pl d) /\ r = - pl_dist pl p / nz (pl_proj pl d)).
Proof.
  apply (fold_min (λ pl, 0 < nz (pl_proj pl d)) (λ pl, - pl_dist pl p / nz (pl_proj pl d)) (out_step p d)).
  intros best pl _. unfold out_step. destruct (rgtb_spec (nz (pl_proj pl d)) 0) as [Hc|Hc].
  - destruct (Rlt_le_dec (- pl_dist pl p / nz (pl_proj pl d)) best).
    + left. rewrite Rmin_right by lra. auto.
    + right. rewrite Rmin_left by lra. split; auto. intros [_ ?]. lra.
  - right. split; auto. intros [? _]. lra.
Qed.
Lemma tet_out_exit p d :
  hull4 a b c e p -> vdot d d = 1 -> vdist p a <= reach -> vdist p b <= reach -> vdist p c <= reach -> vdist p e <= reach ->
  steady kAbsorb (halves (tet_planes t)) d ->
  (forall pl, In pl (tet_planes t) -> pl_proj pl d = 0 -> pl_dist pl p <= - kHalfTolerance) ->
  last_in (hull4 a b c e) p d (tet_to_out inf t p d) /\ tet_to_out inf t p d <= reach.
Proof.
  intros Hp Hd Ha Hb Hc He Hs Hpar. rewrite steady_iff in Hs. pose proof kHalfTolerance_pos as Hh. pose proof kAbsorb_pos as Habs.
  assert (Hreach : 0 < reach) by (unfold reach; apply pow_lt; lra).
  assert (Hcut : cut (halves (tet_planes t)) p) by (apply tet_hull; auto).
  unfold tet_to_out. destruct (rgtb_spec (foldl (λ s pl, Rmax s (pl_dist pl p)) (- inf) (tet_planes t)) kHalfTolerance) as [Hw|Hw].
  { exfalso. pose proof (fold_max_dist inf t p). rewrite cut_iff in Hcut.
    assert (foldl (λ s pl, Rmax s (pl_dist pl p)) (- inf) (tet_planes t) <= kHalfTolerance); [|lra]. apply H; [|lra]. intros pl Hi. specialize (Hcut _ Hi). lra. }
  destruct (out_fold p d) as (H1 & H2 & H3). set (r := foldl (out_step p d) inf (tet_planes t)) in *. clearbody r.
  assert (Hst : forall u, 0 <= u <= r -> cut (halves (tet_planes t)) (along p d u)).
  { apply stays_of_min; auto. intros pl Hi Hc0. specialize (H2 _ Hi). destruct (Hs _ Hi) as [E|E]; [lra|]. rewrite nz_large in H2 by auto. auto. }
  assert (Hbd : forall u, 0 <= u -> cut (halves (tet_planes t)) (along p d u) -> u <= reach).
  { intros u Hu Hcu. apply tet_hull in Hcu; auto. rewrite <- (vdist_along p d u Hd Hu). apply (hull_within a b c e); auto. }
  assert (H0r : 0 <= r).
  { destruct H3 as [->|(pl & Hi & Hc0 & ->)]; [lra|]. rewrite cut_iff in Hcut. specialize (Hcut _ Hi). unfold Rdiv.
    apply Rmult_le_pos; [lra|]. apply Rlt_le, Rinv_0_lt_compat. auto. }
  assert (Hrr : r <= reach) by (apply Hbd; [auto|apply Hst; lra]).
  split; [|auto]. split; [auto|].
  split; [intros u Hu; apply (tet_hull kmin); auto; apply Hst; auto|].
  destruct H3 as [->|(pl & Hi & Hc0 & E)]; [lra|].
  destruct (Hs _ Hi) as [Ez|Ez].
  - exfalso. rewrite Ez, nz_zero in E. specialize (Hpar _ Hi Ez). pose proof (reach_tiny (- pl_dist pl p) ltac:(lra)). lra.
  - rewrite nz_large in * by auto. intros u Hu Hcu. apply (tet_hull kmin) in Hcu; auto. rewrite cut_iff in Hcu. specialize (Hcu _ Hi).
    rewrite dist_along in Hcu. assert (r * pl_proj pl d = - pl_dist pl p) by (rewrite E; field; lra). nra.
Qed.
Lemma tet_out_wrong p d : (exists pl, In pl (tet_planes t) /\ kHalfTolerance < pl_dist pl p) -> tet_to_out inf t p d = -1.
Proof.
  intros (pl & Hi & Hd). unfold tet_to_out. pose proof (fold_max_dist' inf t p pl Hi).
  destruct (rgtb_spec (foldl (λ s pl, Rmax s (pl_dist pl p)) (- inf) (tet_planes t)) kHalfTolerance); [auto|lra].
Qed.

(** Distance to in *)
Lemma in_fold_gen p d pls x y z :
  let '(dist, out, s) := foldl (in_step p d) (x, y, z) pls in
  x <= dist /\ (forall pl, In pl pls -> nz (pl_proj pl d) < 0 -> - pl_dist pl p / nz (pl_proj pl d) <= dist) /\
  (dist = x \/ exists pl, In pl pls /\ nz (pl_proj pl d) < 0 /\ dist = - pl_dist pl p / nz (pl_proj pl d)) /\
  out <= y /\ (forall pl, In pl pls -> 0 < nz (pl_proj pl d) -> out <= - pl_dist pl p / nz (pl_proj pl d)) /\
  (out = y \/ exists pl, In pl pls /\ 0 < nz (pl_proj pl d) /\ out = - pl_dist pl p / nz (pl_proj pl d)) /\
  (0 <= z -> 0 <= s).
Proof.
  revert x y z. induction pls as [|pl pls IH]; intros x y z.
  - cbn. split; [lra|]. split; [intros ? []|]. split; [auto|]. split; [lra|]. split; [intros ? []|]. auto.
  - change (foldl (in_step p d) (x, y, z) (pl :: pls)) with (foldl (in_step p d) (in_step p d (x, y, z) pl) pls).
    unfold in_step at 2.
    set (v := - pl_dist pl p / nz (pl_proj pl d)) in *.
    destruct (rltb_spec (nz (pl_proj pl d)) 0) as [Hn|Hn]; destruct (rgtb_spec (nz (pl_proj pl d)) 0) as [Hp|Hp]; try lra.
    + specialize (IH (Rmax x v) y z). destruct (foldl (in_step p d) (Rmax x v, y, z) pls) as [[dist out] s].
      destruct IH as (A & B & C & D & E & F & G). pose proof (Rmax_l x v). pose proof (Rmax_r x v).
      split; [lra|]. split; [intros q [<-|Hq] Hc; [fold v; lra|auto]|]. split.
      * destruct C as [->|(q & ? & ? & ?)]; [|right; exists q; cbn; auto].
        unfold Rmax in *. destruct (Rle_dec x v); [right; exists pl; cbn; auto|auto].
      * split; [auto|]. split; [intros q [<-|Hq] Hc; [lra|auto]|]. split; [|auto].
        destruct F as [->|(q & ? & ? & ?)]; [auto|right; exists q; cbn; auto].
    + specialize (IH x (Rmin y v) (Rmin z (Rabs (pl_dist pl p)))). destruct (foldl (in_step p d) (x, Rmin y v, Rmin z (Rabs (pl_dist pl p))) pls) as [[dist out] s].
      destruct IH as (A & B & C & D & E & F & G). pose proof (Rmin_l y v). pose proof (Rmin_r y v).
      split; [auto|]. split; [intros q [<-|Hq] Hc; [lra|auto]|]. split; [destruct C as [->|(q & ? & ? & ?)]; [auto|right; exists q; cbn; auto]|].
      split; [lra|]. split; [intros q [<-|Hq] Hc; [fold v; lra|auto]|]. split.
      * destruct F as [->|(q & ? & ? & ?)]; [|right; exists q; cbn; auto].
        unfold Rmin in *. destruct (Rle_dec y v); [auto|right; exists pl; cbn; auto].
      * intros Hz. apply G. apply Rmin_glb; [auto|apply Rabs_pos].
    + exfalso. unfold nz, nonzero in *. pose proof kTiny_pos. pose proof kAbsorb_pos.
      destruct (rgeb_spec (Rabs (pl_proj pl d)) kAbsorb) as [Hg|Hg].
      * assert (pl_proj pl d = 0) by lra. rewrite H1, Rabs_R0 in Hg. lra.
      * destruct (rltb_spec (pl_proj pl d) 0); lra.
Qed.
Lemma tet_in_entry p d :
  vdot d d = 1 -> vdist p a <= reach -> vdist p b <= reach -> vdist p c <= reach -> vdist p e <= reach ->
  steady kAbsorb (halves (tet_planes t)) d ->
  (forall pl, In pl (tet_planes t) -> pl_proj pl d = 0 -> pl_dist pl p <= - kHalfTolerance \/ 0 <= pl_dist pl p) ->
  let D := tet_to_in inf t p d in
  (D = inf /\ forall u r, kHalfTolerance <= u -> 0 < r -> ~ deep_in (hull4 a b c e) (along p d u) r) \/
  (D < inf /\ first_in (hull4 a b c e) p d D) \/
  (D < 0 /\ hull4 a b c e p).
Proof.
  intros Hd Ha Hb Hc He Hs Hpar D. rewrite steady_iff in Hs. pose proof kHalfTolerance_pos as Hh. pose proof kAbsorb_pos as Habs. pose proof kTiny_pos as Htiny.
  assert (Hreach : 0 < reach) by (unfold reach; apply pow_lt; lra).
  unfold D, tet_to_in. pose proof (in_fold_gen p d (tet_planes t) (- inf) inf inf) as G.
  destruct (foldl (in_step p d) (- inf, inf, inf) (tet_planes t)) as [[dist out] s].
  destruct G as (G1 & G2 & G3 & G4 & G5 & G6 & G7). specialize (G7 ltac:(lra)).
  assert (Hbd : forall u, 0 <= u -> hull4 a b c e (along p d u) -> u <= reach).
  { intros u Hu Hcu. rewrite <- (vdist_along p d u Hd Hu). apply (hull_within a b c e); auto. }
  (* what the planes say *)
  assert (Hneg : forall pl, In pl (tet_planes t) -> pl_proj pl d < 0 -> forall u, pl_dist pl (along p d u) <= 0 <-> - pl_dist pl p / pl_proj pl d <= u).
  { intros pl Hi Hn u. rewrite dist_along. set (v := - pl_dist pl p / pl_proj pl d). assert (v * pl_proj pl d = - pl_dist pl p) by (unfold v; field; lra). split; intros; nra. }
  destruct (rgeb_spec dist out) as [Hdo|Hdo]; [|destruct (rleb_spec out kHalfTolerance) as [Ho|Ho]; [|destruct (rleb_spec s (- kHalfTolerance)); [lra|]]]; cbn [orb].
  - left. split; [auto|]. intros u r Hu Hr Hdeep.
    assert (Hop : forall pl, In pl (tet_planes t) -> pl_dist pl (along p d u) < 0).
    { apply (deep_open (tet_planes t) _ r); auto.
      - intros pl Hi. split; [apply (tet_normals_pos kmin a b c e); auto|]. pose proof (tet_short kmin a b c e Hk HT) as Sh. rewrite short_iff in Sh. auto.
      - intros q Hq. apply tet_hull; auto. }
    assert (Hur : u <= reach). { apply Hbd; [lra|]. apply Hdeep. rewrite vdist_refl. lra. }
    assert (Hlo : dist < u \/ dist = - inf).
    { destruct G3 as [->|(pl & Hi & Hn & ->)]; [auto|left]. specialize (Hop _ Hi). rewrite dist_along in Hop.
      destruct (Hs _ Hi) as [E|E]; [rewrite E, nz_zero in Hn; lra|]. rewrite nz_large in * by auto.
      assert (- pl_dist pl p / pl_proj pl d * pl_proj pl d = - pl_dist pl p) by (field; lra).
      set (v := - pl_dist pl p / pl_proj pl d) in *. clearbody v. nra. }
    assert (Hhi : u < out).
    { destruct G6 as [->|(pl & Hi & Hn & ->)]; [lra|]. specialize (Hop _ Hi). rewrite dist_along in Hop.
      destruct (Hs _ Hi) as [E|E].
      - rewrite E, nz_zero in *. destruct (Hpar _ Hi E) as [Hq|Hq]; [|exfalso; lra].
        pose proof (reach_tiny (- pl_dist pl p) ltac:(lra)). lra.
      - rewrite nz_large in * by auto.
        assert (- pl_dist pl p / pl_proj pl d * pl_proj pl d = - pl_dist pl p) by (field; lra).
        set (v := - pl_dist pl p / pl_proj pl d) in *. clearbody v. nra. }
    destruct Hlo as [Hlo|Hlo]; lra.
  - left. split; [auto|]. intros u r Hu Hr Hdeep.
    assert (Hop : forall pl, In pl (tet_planes t) -> pl_dist pl (along p d u) < 0).
    { apply (deep_open (tet_planes t) _ r); auto.
      - intros pl Hi. split; [apply (tet_normals_pos kmin a b c e); auto|]. pose proof (tet_short kmin a b c e Hk HT) as Sh. rewrite short_iff in Sh. auto.
      - intros q Hq. apply tet_hull; auto. }
    assert (Hur : u <= reach). { apply Hbd; [lra|]. apply Hdeep. rewrite vdist_refl. lra. }
    assert (Hhi : u < out).
    { destruct G6 as [->|(pl & Hi & Hn & ->)]; [lra|]. specialize (Hop _ Hi). rewrite dist_along in Hop.
      destruct (Hs _ Hi) as [E|E].
      - rewrite E, nz_zero in *. destruct (Hpar _ Hi E) as [Hq|Hq]; [|exfalso; lra].
        pose proof (reach_tiny (- pl_dist pl p) ltac:(lra)). lra.
      - rewrite nz_large in * by auto.
        assert (- pl_dist pl p / pl_proj pl d * pl_proj pl d = - pl_dist pl p) by (field; lra).
        set (v := - pl_dist pl p / pl_proj pl d) in *. clearbody v. nra. }
    lra.
  - (* a hit or inside *)
    assert (Hin : forall u, dist <= u -> 0 <= u -> u <= out -> hull4 a b c e (along p d u)).
    { intros u H1 H2 H3. apply (tet_hull kmin); auto. apply cut_iff. intros pl Hi. rewrite dist_along.
      destruct (Hs _ Hi) as [E|E].
      - rewrite E, Rmult_0_r, Rplus_0_r. specialize (G5 _ Hi). rewrite E, nz_zero in G5. specialize (G5 Htiny).
        assert (0 < - pl_dist pl p / kTiny) by lra. destruct (Rle_lt_dec (pl_dist pl p) 0); [auto|exfalso].
        unfold Rdiv in H. assert (0 < / kTiny) by (apply Rinv_0_lt_compat; auto). nra.
      - destruct (Rtotal_order (pl_proj pl d) 0) as [Hn|[Hz|Hp]].
        + specialize (G2 _ Hi). rewrite nz_large in G2 by auto. specialize (G2 Hn).
          assert (- pl_dist pl p / pl_proj pl d * pl_proj pl d = - pl_dist pl p) by (field; lra).
          set (v := - pl_dist pl p / pl_proj pl d) in *. clearbody v. nra.
        + rewrite Hz, Rabs_R0 in E. lra.
        + specialize (G5 _ Hi). rewrite nz_large in G5 by auto. specialize (G5 Hp).
          assert (- pl_dist pl p / pl_proj pl d * pl_proj pl d = - pl_dist pl p) by (field; lra).
          set (v := - pl_dist pl p / pl_proj pl d) in *. clearbody v. nra. }
    destruct (Rlt_le_dec dist 0) as [Hneg0|Hpos0].
    + right. right. split; [auto|]. replace p with (along p d 0) by (apply v3_eq; cbn; ring). apply Hin; lra.
    + right. left. split; [lra|]. split; [auto|]. split; [apply Hin; lra|]. intros u Hu Hcu.
      apply (tet_hull kmin) in Hcu; auto. rewrite cut_iff in Hcu.
      destruct G3 as [->|(pl & Hi & Hn & E)]; [lra|]. specialize (Hcu _ Hi).
      destruct (Hs _ Hi) as [Ez|Ez]; [rewrite Ez, nz_zero in Hn; lra|]. rewrite nz_large in * by auto. apply Hneg in Hcu; auto. lra.
Qed.
End Rays.
