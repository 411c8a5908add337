(** C48: plane shells.  See properties.jsonl. *)
From Coq Require Import Reals Lra Lia Bool.
From stdpp Require Import base list option numbers tactics.
From Verif Require Import Real3 BoxModel AABBModel OrbSpec ScaledSpec PlanesModel PlanesSpec PlanesProofs PlanesProofs2 PlanesProofs3 PropPlanes.
Import stdpp.list.
Local Open Scope R_scope.

Lemma rgtb_true x y : rgtb x y = true ↔ y < x.
Proof. destruct (rgtb_spec x y); split; intros; (done || lra). Qed.
Section Shell.
Variables (inf : R) (pls : list plane).
Let H := halves pls.
(** Contains: the closed intersection; the flag that comes in is kept when set. *)
Theorem C48_shell_contains p ci co : snd (shell_kernel false pls p ci co) = true ↔ co = true ∨ ¬ cut H p.
Proof using.
  rewrite shell_kernel_spec. cbn [snd]. rewrite orb_true_iff, existsb_exists. unfold H. rewrite cut_iff.
  split; (intros [->|G]; [by left|right]).
  - intros K. destruct G as (pl & Hi & G). apply rgtb_true in G. specialize (K _ Hi). lra.
  - clear -G. induction pls as [|x l IH]; [exfalso; apply G; intros ? []|].
    destruct (Rle_dec (pl_dist x p) 0) as [Hx|Hx]; [|exists x; split; [by left|apply rgtb_true; lra]].
    destruct IH as (q & ? & ?); [|exists q; split; [by right|done]]. intros K. apply G. intros y [<-|Hy]; auto.
Qed.
(** Inside: both flags by heights. *)
Theorem C48_shell_inside p ci co : let '(i, o) := shell_kernel true pls p ci co in
  (i = true ↔ ci = true ∧ ∀ n k, In (n, k) H → height n k p < - kHalfTolerance) ∧
  (o = true ↔ co = true ∨ ∃ n k, In (n, k) H ∧ kHalfTolerance < height n k p).
Proof using.
  rewrite shell_kernel_spec. rewrite andb_true_iff, orb_true_iff, forallb_forall, existsb_exists. unfold H.
  split; split.
  - intros [-> G]. split; [done|]. intros n k Hi. apply in_halves in Hi. specialize (G _ Hi). apply rltb_true in G.
    change (height (pl_n (Plane n k)) (pl_d (Plane n k)) p < - kHalfTolerance). rewrite height_dist. lra.
  - intros [-> G]. split; [done|]. intros [n k] Hi. apply rltb_true. rewrite <- height_dist. cbn [pl_n pl_d].
    specialize (G n k (proj2 (in_halves _ _ _) Hi)). lra.
  - intros [->|([n k] & Hi & G)]; [by left|right]. exists n, k. rewrite in_halves. split; [done|]. apply rgtb_true in G.
    rewrite <- height_dist in G. cbn [pl_n pl_d] in G. lra.
  - intros [->|(n & k & Hi & G)]; [by left|right]. exists (Plane n k). apply in_halves in Hi. split; [done|]. apply rgtb_true.
    rewrite <- height_dist. cbn [pl_n pl_d]. lra.
Qed.
(** SafetyToOut: the smaller of what comes in and the room inside the shell. *)
Theorem C48_shell_safety_out p s0 : short_normals H → let s := shell_safety_out pls p s0 in
  s <= s0 ∧ deep_in (cut H) p s ∧ (cut H p → unit_normals H → s < s0 → escapes (cut H) p s).
Proof using.
  intros Hs s. destruct (shell_safety_out_min pls p s0) as (A & B & C). fold s in A, B, C. split; [done|]. split.
  - apply deep_of_dist; [done|]. intros pl Hi. specialize (B _ Hi). lra.
  - intros Hp Hu Hl. destruct C as [C|(pl & Hi & C)]; [lra|]. unfold H in Hp. rewrite cut_iff in Hp. specialize (Hp _ Hi).
    apply (escapes_of_dist _ _ _ pl); [done|done|lra|lra].
Qed.
(** SafetyToIn: the larger of what comes in and a distance that the shell is away. *)
Theorem C48_shell_safety_in p s0 : short_normals H → let s := shell_safety_in pls p s0 in
  s0 <= s ∧ (s = s0 ∨ clear_of (cut H) p s) ∧ (0 <= s0 → s = s0 → ∀ n k, In (n, k) H → height n k p <= s0).
Proof using.
  intros Hs s. destruct (shell_safety_in_max pls p s0) as (A & B & C). fold s in A, B, C. split; [done|]. split.
  - destruct C as [C|(pl & Hi & C)]; [by left|right]. apply (clear_of_dist _ _ _ pl); [done|done|lra].
  - intros _ E n k Hi. apply in_halves in Hi. specialize (B _ Hi). change (height (pl_n (Plane n k)) (pl_d (Plane n k)) p <= s0).
    rewrite height_dist. lra.
Qed.
(** ClosestFace: the first plane nearest to the point, if it is nearer than what comes in; -1 otherwise. *)
Theorem C48_shell_closest p s0 : let '(s, i) := shell_closest pls p s0 in
  match i with
  | Some i => ∃ pl, pls !! i = Some pl ∧ s = Rabs (height (pl_n pl) (pl_d pl) p) ∧ s < s0 ∧
      (∀ j q, pls !! j = Some q → s <= Rabs (height (pl_n q) (pl_d q) p)) ∧
      (∀ j q, pls !! j = Some q → (j < i)%nat → s < Rabs (height (pl_n q) (pl_d q) p))
  | None => s = s0 ∧ ∀ j q, pls !! j = Some q → s0 <= Rabs (height (pl_n q) (pl_d q) p)
  end.
Proof using.
  pose proof (closest_gen pls p 0 s0 None) as G. cbv zeta in G. unfold shell_closest.
  replace (imap (λ i pl, ((0 + i)%nat, pl)) pls) with (imap pair pls) in G by (apply imap_ext; done).
  destruct (foldl (closer_step p) (s0, None) (imap pair pls)) as [s i]. cbn [fst] in G. destruct G as (A & B & C).
  assert (B' : ∀ j q, pls !! j = Some q → s <= Rabs (height (pl_n q) (pl_d q) p)).
  { intros j q Hj. rewrite height_dist. apply B. apply elem_of_list_In. eapply elem_of_list_lookup_2, Hj. }
  destruct C as [[= -> ->]|(j & pl & Hj & [= -> ->] & Hlt & Hfirst)]; [done|].
  exists pl. rewrite height_dist. split; [done|]. split; [done|]. split; [done|]. split; [done|].
  intros j' q Hq Hlt'. rewrite height_dist. by apply (Hfirst j').
Qed.
(** DistanceToOut of points of the shell: where the ray leaves it. *)
Theorem C48_shell_out p d : cut H p → steady kAbsorb H d → leaves inf (cut H) p d (shell_to_out inf pls p d).
Proof using. apply shell_out_leaves. Qed.
(** Points on the wrong side get -1 or less. *)
Theorem C48_shell_wrong_side p d : (∃ n k, In (n, k) H ∧ kHalfTolerance < height n k p) → shell_to_out inf pls p d <= -1.
Proof using.
  intros (n & k & Hi & G). apply shell_out_wrong. apply in_halves in Hi. exists (Plane n k). split; [done|]. by rewrite <- height_dist.
Qed.
(** DistanceToIn between [smin] and [smax], for points away from every plane by half a tolerance: infinity when no such
    part of the ray is in the shell, else the first such place; below zero only for points already in the shell. *)
Theorem C48_shell_in p d smin smax :
  (∀ n k, In (n, k) H → kHalfTolerance < height n k p ∨ height n k p <= - kHalfTolerance) → steady kAbsorb H d → smax < inf →
  let D := shell_to_in inf pls p d smin smax in
  let W u := smin <= u <= smax ∧ cut H (along p d u) in
  (D = inf ∧ ∀ u, 0 <= u → ¬ W u) ∨ (D < inf ∧ 0 <= D ∧ W D ∧ ∀ u, 0 <= u < D → ¬ W u) ∨ (D < 0 ∧ D = smin ∧ cut H p).
Proof using.
  intros Hs. apply shell_to_in_spec. intros [n k] Hi. unfold settled. rewrite <- height_dist. apply Hs, in_halves, Hi.
Qed.
End Shell.
Print Assumptions C48_shell_contains.
Print Assumptions C48_shell_inside.
Print Assumptions C48_shell_safety_out.
Print Assumptions C48_shell_safety_in.
Print Assumptions C48_shell_closest.
Print Assumptions C48_shell_out.
Print Assumptions C48_shell_wrong_side.
Print Assumptions C48_shell_in.
(** A diagonal ray through the slab meets the hypotheses. *)
Example slab_ray : let p := V3 (-3) 0 0 in let d := V3 (6/10) (8/10) 0 in
  steady kAbsorb (halves [xp; xm]) d ∧ (∀ n k, In (n, k) (halves [xp; xm]) → kHalfTolerance < height n k p ∨ height n k p <= - kHalfTolerance) ∧
  vdot d d = 1.
Proof.
  intros p d. assert (Ha : kAbsorb <= 6 / 10).
  { unfold kAbsorb. apply Rle_trans with (/ 2); [|lra]. apply Rinv_le_contravar; [lra|]. replace 2 with (2 ^ 1) at 1 by ring. apply Rle_pow; [lra|lia]. }
  split; [|split].
  - apply steady_iff. intros pl [<-|[<-|[]]]; right; unfold pl_proj, vdot; cbn.
    + rewrite Rabs_pos_eq; lra.
    + rewrite Rabs_left; lra.
  - intros n k Hi. unfold kHalfTolerance, kTolerance. apply in_halves in Hi as [[= <- <-]|[[= <- <-]|[]]]; unfold height; cbn; lra.
  - unfold vdot. cbn. lra.
Qed.
(** The marker is not -1 alone: a point two above a face, leaving, gets -2. *)
Theorem C48_shell_marker_refuted inf : 0 < inf → shell_to_out inf [xm] (V3 (-3) 0 0) (V3 (-1) 0 0) = -2.
Proof.
  intros Hi. unfold shell_to_out. cbn -[pl_dist pl_proj shell_vdist]. unfold shell_vdist.
  assert (pl_dist xm (V3 (-3) 0 0) = 2) as -> by (unfold pl_dist, vdot; cbn; lra).
  assert (pl_proj xm (V3 (-1) 0 0) = 1) as -> by (unfold pl_proj, vdot; cbn; lra).
  assert (Ha : kAbsorb <= 1). { unfold kAbsorb. rewrite <- Rinv_1 at 1. apply Rinv_le_contravar; [lra|]. apply pow_R1_Rle. lra. }
  rewrite nz_large by (rewrite Rabs_R1; exact Ha).
  destruct (rgtb_spec 2 kHalfTolerance); [|unfold kHalfTolerance, kTolerance in *; lra]. destruct (rgtb_spec 1 0); [|lra].
  cbn [andb]. destruct (rltb_spec (- (2) / 1) (-1)); lra.
Qed.
(** Within half a tolerance under a face and moving along it: infinity, though the whole ray is in the shell. *)
Theorem C48_shell_grazing_refuted inf : 100 < inf → let p := V3 (1 - kTolerance / 4) 0 0 in let d := V3 0 1 0 in
  shell_to_in inf [xp; xm] p d 0 100 = inf ∧ ∀ u, cut_open (halves [xp; xm]) (along p d u).
Proof.
  intros Hi p d. pose proof kTolerance_pos as Ht. assert (Hs : kTolerance < 1) by (unfold kTolerance; lra).
  assert (Eh : kHalfTolerance = kTolerance / 2) by (unfold kHalfTolerance; lra). split.
  - unfold shell_to_in.
    assert (pl_dist xp p = - (kTolerance / 4)) as E1 by (unfold pl_dist, vdot; cbn; lra).
    assert (pl_dist xm p = kTolerance / 4 - 2) as E2 by (unfold pl_dist, vdot; cbn; lra).
    assert (pl_proj xp d = 0) as E3 by (unfold pl_proj, vdot; cbn; lra). assert (pl_proj xm d = 0) as E4 by (unfold pl_proj, vdot; cbn; lra).
    destruct (shell_leaving [xp; xm] p d) eqn:L; [done|]. cbn -[pl_dist pl_proj shell_vdist]. unfold shell_vdist.
    rewrite E1, E3, nz_zero. destruct (rgtb_spec (- (kTolerance / 4)) (0 - kHalfTolerance)); [|lra]. destruct (rgtb_spec 0 0); [lra|]. cbn [negb andb orb].
    destruct (rgtb_spec (- - (kTolerance / 4) / kTiny) 100) as [|Hn]; [done|]. exfalso. apply Hn. clear Hn.
    unfold kTiny, Rdiv. rewrite Rinv_inv. unfold kTolerance. 
    assert (E : 10 ^ 30 = 10 ^ 20 * 10 ^ 10) by (rewrite <- pow_add; reflexivity). rewrite E.
    assert (1 <= 10 ^ 20) by (apply pow_R1_Rle; lra). nra.
  - intros u. apply cut_open_iff. intros pl [<-|[<-|[]]]; unfold pl_dist, along, vdot; cbn; lra.
Qed.
Print Assumptions C48_shell_marker_refuted.
Print Assumptions C48_shell_grazing_refuted.

(** NormalKernel of a shell of four planes. *)
Section Normal.
Variables (inf : R) (a b c e : plane) (p n0 : v3).
Let pls := [a; b; c; e].
Hypothesis Hinf : ∀ pl, In pl pls → - inf < pl_dist pl p.
Lemma four : shell_normal inf pls p n0 = Some (normal_step p e (normal_step p c (normal_step p b (normal_step p a (- inf, n0))))).
Proof using. done. Qed.
Lemma step_pair pl st : normal_step p pl st = normal_step p pl (fst st, snd st).
Proof using. by destruct st. Qed.
(** The safety is the largest height, as SafetyToIn. *)
Theorem C48_shell_normal_safety : ∃ s n, shell_normal inf pls p n0 = Some (s, n) ∧
  (∀ pl, In pl pls → pl_dist pl p <= s) ∧ ∃ pl, In pl pls ∧ s = pl_dist pl p.
Proof using Hinf.
  rewrite four. destruct (normal_step p e (normal_step p c (normal_step p b (normal_step p a (- inf, n0))))) as [s n] eqn:E.
  exists s, n. split; [done|]. apply (f_equal fst) in E. cbn [fst] in E.
  rewrite (step_pair e), normal_step_max, (step_pair c), normal_step_max, (step_pair b), normal_step_max, normal_step_max in E. subst s.
  assert (Ha : - inf < pl_dist a p) by (apply Hinf; cbn; auto). rewrite (Rmax_right (- inf)) by lra.
  set (A := pl_dist a p). set (B := pl_dist b p). set (C := pl_dist c p). set (F := pl_dist e p).
  pose proof (Rmax_l A B); pose proof (Rmax_r A B); pose proof (Rmax_l (Rmax A B) C); pose proof (Rmax_r (Rmax A B) C);
  pose proof (Rmax_l (Rmax (Rmax A B) C) F); pose proof (Rmax_r (Rmax (Rmax A B) C) F). split.
  - intros pl [<-|[<-|[<-|[<-|[]]]]]; [fold A|fold B|fold C|fold F]; lra.
  - unfold Rmax. repeat match goal with |- context [Rle_dec ?x ?y] => destruct (Rle_dec x y) end;
    first [by (exists e; split; [cbn; tauto|]) | by (exists c; split; [cbn; tauto|]) | by (exists b; split; [cbn; tauto|])
          | by (exists a; split; [cbn; tauto|])].
Qed.
(** One plane above all others by half a tolerance: its normal. *)
Theorem C48_shell_normal pl : In pl pls → (∀ q, In q pls → q ≠ pl → pl_dist q p <= pl_dist pl p - kHalfTolerance) →
  NoDup pls → shell_normal inf pls p n0 = Some (pl_dist pl p, pl_n pl).
Proof using Hinf.
  intros Hi Hq Hnd. rewrite four. f_equal. pose proof kHalfTolerance_pos as Hh.
  assert (G : ∀ l st, (∀ q, In q l → In q pls ∧ q ≠ pl) → fst st = pl_dist pl p → foldl (λ st q, normal_step p q st) st l = st).
  { induction l as [|q l IH]; intros [s n] Hl Es; [done|]. cbn in Es. subst s. cbn [foldl].
    destruct (Hl q (or_introl eq_refl)) as [Hq1 Hq2]. rewrite normal_step_near by (apply Hq; auto). apply IH; [intros; apply Hl; by right|done]. }
  assert (B : ∀ l st, (∀ q, In q l → In q pls ∧ q ≠ pl) → fst st < pl_dist pl p → fst (foldl (λ st q, normal_step p q st) st l) < pl_dist pl p).
  { induction l as [|q l IH]; intros [s n] Hl Es; [done|]. cbn [foldl]. apply IH; [intros; apply Hl; by right|]. rewrite normal_step_max. cbn in Es.
    destruct (Hl q (or_introl eq_refl)) as [Hq1 Hq2]. specialize (Hq q Hq1 Hq2). unfold Rmax. destruct (Rle_dec s (pl_dist q p)); lra. }
  change (foldl (λ st q, normal_step p q st) (- inf, n0) pls = (pl_dist pl p, pl_n pl)).
  pose proof Hi as Hsplit. apply in_split in Hsplit as (l1 & l2 & E). rewrite E in Hnd. rewrite E at 1. rewrite foldl_app. cbn [foldl].
  apply NoDup_app in Hnd as (N1 & N2 & N3). apply NoDup_cons in N3 as [N3 N4].
  assert (O1 : ∀ q, In q l1 → In q pls ∧ q ≠ pl).
  { intros q Hl. split; [rewrite E; apply in_app_iff; by left|]. intros ->. apply (N2 pl); [by apply elem_of_list_In|left]. }
  assert (O2 : ∀ q, In q l2 → In q pls ∧ q ≠ pl).
  { intros q Hl. split; [rewrite E; apply in_app_iff; right; by right|]. intros ->. apply N3. by apply elem_of_list_In. }
  pose proof (B l1 (- inf, n0) O1 (Hinf _ Hi)) as Hlt. destruct (foldl (λ st q, normal_step p q st) (- inf, n0) l1) as [s n]. cbn in Hlt.
  rewrite normal_step_far by done. by apply G.
Qed.
(** Exactly on an edge of the first two faces, the others lower: the sum of both normals. *)
Theorem C48_shell_normal_edge : pl_dist a p = 0 → pl_dist b p = 0 → pl_dist c p <= - kHalfTolerance → pl_dist e p <= - kHalfTolerance →
  shell_normal inf pls p n0 = Some (0, vadd (pl_n a) (pl_n b)).
Proof using Hinf.
  intros Ea Eb Hc He. rewrite four. f_equal. pose proof kHalfTolerance_pos as Hh.
  assert (- inf < pl_dist a p) by (apply Hinf; cbn; auto).
  rewrite (normal_step_far p a) by done. rewrite Ea. rewrite normal_step_tie by lra. rewrite !normal_step_near by lra. done.
Qed.
End Normal.
(** The loop runs over four planes whatever the size: with fewer it reads beyond the arrays, with more it ignores the rest. *)
Theorem C48_shell_normal_size_refuted inf p n0 :
  (∀ pls, (length pls < 4)%nat → shell_normal inf pls p n0 = None) ∧
  (∀ a b c e rest, shell_normal inf (a :: b :: c :: e :: rest) p n0 = shell_normal inf [a; b; c; e] p n0).
Proof. split; [|done]. intros [|a [|b [|c [|e l]]]] Hl; try done. cbn in Hl. lia. Qed.
(** Two faces almost at the same height, the later a little higher: the sum of the normals is thrown away. *)
Theorem C48_shell_normal_tie_refuted inf : 100 < inf → let p := V3 (1 - kTolerance / 8) 1 0 in
  let yp := Plane (V3 0 1 0) (-1) in let ym := Plane (V3 0 (-1) 0) (-1) in
  shell_normal inf [xp; yp; xm; ym] p vzero = Some (0, V3 0 1 0) ∧ shell_normal inf [yp; xp; ym; xm] p vzero = Some (0, V3 1 1 0).
Proof.
  intros Hi p yp ym. pose proof kTolerance_pos as Ht. assert (Hs : kTolerance < 1) by (unfold kTolerance; lra).
  assert (Eh : kHalfTolerance = kTolerance / 2) by (unfold kHalfTolerance; lra).
  assert (E1 : pl_dist xp p = - (kTolerance / 8)) by (unfold pl_dist, vdot; cbn; lra).
  assert (E2 : pl_dist yp p = 0) by (unfold pl_dist, vdot; cbn; lra).
  assert (E3 : pl_dist xm p = kTolerance / 8 - 2) by (unfold pl_dist, vdot; cbn; lra).
  assert (E4 : pl_dist ym p = - 2) by (unfold pl_dist, vdot; cbn; lra).
  split; rewrite four; f_equal.
  - rewrite (normal_step_far p xp), (normal_step_far p yp), (normal_step_near p xm), (normal_step_near p ym) by lra. by rewrite E2.
  - rewrite (normal_step_far p yp) by lra. unfold normal_step at 3. rewrite E1, E2.
    destruct (rgtb_spec (- (kTolerance / 8) - 0) 0); [lra|]. destruct (rltb_spec (Rabs (- (kTolerance / 8) - 0)) kHalfTolerance) as [|Hn].
    2: { exfalso. apply Hn. rewrite Rabs_left; lra. }
    destruct (rgeb_spec (- (kTolerance / 8)) (- kHalfTolerance)); [|lra]. cbn [andb].
    rewrite !normal_step_near by lra. f_equal. apply v3_eq; unfold vadd; cbn; lra.
Qed.
Print Assumptions C48_shell_normal_safety.
Print Assumptions C48_shell_normal.
Print Assumptions C48_shell_normal_edge.
Print Assumptions C48_shell_normal_size_refuted.
Print Assumptions C48_shell_normal_tie_refuted.
(** A square column, one point on a face. *)
Example column_face inf : 100 < inf → let yp := Plane (V3 0 1 0) (-1) in let ym := Plane (V3 0 (-1) 0) (-1) in
  shell_normal inf [xp; yp; xm; ym] (V3 1 0 0) vzero = Some (0, V3 1 0 0).
Proof.
  intros Hi yp ym. pose proof kTolerance_pos as Ht. assert (Hs : kTolerance < 1) by (unfold kTolerance; lra).
  assert (Eh : kHalfTolerance = kTolerance / 2) by (unfold kHalfTolerance; lra). rewrite four. f_equal.
  rewrite (normal_step_far _ xp) by (unfold pl_dist, vdot; cbn; lra).
  rewrite (normal_step_near _ yp), (normal_step_near _ xm), (normal_step_near _ ym) by (unfold pl_dist, vdot; cbn; lra).
  f_equal. unfold pl_dist, vdot. cbn. lra.
Qed.
