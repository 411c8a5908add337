(** The phi wedge: classes, rays, the sector test of the cones, start angles, the contract of the cone kernels. *)
From Coq Require Import Reals Lra Lia Bool ZArith.
From stdpp Require Import base tactics.
From Verif Require Import Real3 BoxModel ConeModel ConeSpec PolyconeSpec WedgeModel WedgeSpec WedgeProofs.
Local Open Scope R_scope.

(** * Classes *)
Lemma on_surface1_spec d s x y : on_surface1 (mk_wedge d s) x y = true <-> near_line kTolerance s x y.
Proof.
  pose proof (on_surface_spec s x y 1 ltac:(lra)) as H. rewrite !Rmult_1_l in H. unfold on_surface1, near_line. cbn [mk_wedge wd_a1x wd_a1y wd_n1x wd_n1y].
  rewrite H. split; intros [A B]; (split; [done|]); by apply (near_half_line s x y A).
Qed.
Lemma on_surface2_spec d s x y : on_surface2 (mk_wedge d s) x y = true <-> near_line kTolerance (s + d) x y.
Proof.
  pose proof (on_surface_spec (s + d) x y (-1) ltac:(lra)) as H. unfold on_surface2, near_line. cbn [mk_wedge wd_a2x wd_a2y wd_n2x wd_n2y].
  replace (-1 * - sin (s + d)) with (sin (s + d)) in H by ring. replace (-1 * cos (s + d)) with (- cos (s + d)) in H by ring.
  rewrite H. split; intros [A B]; (split; [done|]); by apply (near_half_line (s + d) x y A).
Qed.
Definition on_side (d s x y : R) : Prop := near_line kTolerance s x y \/ near_line kTolerance (s + d) x y.
Lemma surf_spec d s x y : on_surface1 (mk_wedge d s) x y || on_surface2 (mk_wedge d s) x y = true <-> on_side d s x y.
Proof. rewrite orb_true_iff, on_surface1_spec, on_surface2_spec. done. Qed.
Lemma kernel_fi w x y :
  wedge_kernel w true x y = let surf := on_surface1 w x y || on_surface2 w x y in let out := snd (wedge_kernel w false x y) in
    (negb surf && negb (out && negb surf), out && negb surf).
Proof. reflexivity. Qed.
Lemma kernel_out_true d s x y : snd (wedge_kernel (mk_wedge d s) false x y) = true <-> ~ by_sides s d x y.
Proof. rewrite <- kernel_out. destruct (snd _); split; done. Qed.
Lemma inside_cases d s x y : 0 < d <= 2 * PI ->
  match wedge_inside (mk_wedge d s) x y with
  | kInside => sector s d x y /\ ~ on_side d s x y
  | kOutside => ~ sector s d x y /\ ~ on_side d s x y
  | kSurface => on_side d s x y
  end.
Proof.
  intros Hd. unfold wedge_inside. rewrite kernel_fi. cbn zeta. pose proof (surf_spec d s x y) as Hs.
  pose proof (kernel_out d s x y) as Ho. pose proof (sector_sides s d x y Hd) as Hx. destruct (on_surface1 _ x y || on_surface2 _ x y); destruct (snd (wedge_kernel _ false x y)); cbn; intuition discriminate.
Qed.
Lemma with_boundary d s x y : 0 < d <= 2 * PI -> contains_with_boundary (mk_wedge d s) x y = true <-> sector s d x y \/ on_side d s x y.
Proof.
  intros Hd. unfold contains_with_boundary. rewrite kernel_fi. cbn zeta. pose proof (surf_spec d s x y) as Hs.
  pose proof (kernel_out d s x y) as Ho. pose proof (sector_sides s d x y Hd) as Hx. destruct (on_surface1 _ x y || on_surface2 _ x y); destruct (snd (wedge_kernel _ false x y)); cbn; intuition discriminate.
Qed.
Lemma without_boundary d s x y : 0 < d <= 2 * PI -> contains_without_boundary (mk_wedge d s) x y = true <-> sector s d x y /\ ~ on_side d s x y.
Proof.
  intros Hd. unfold contains_without_boundary. rewrite kernel_fi. cbn zeta. pose proof (surf_spec d s x y) as Hs.
  pose proof (kernel_out d s x y) as Ho. pose proof (sector_sides s d x y Hd) as Hx. destruct (on_surface1 _ x y || on_surface2 _ x y); destruct (snd (wedge_kernel _ false x y)); cbn; intuition discriminate.
Qed.

(** * Rays *)
Lemma side_along phi x y dx dy u : side phi (x + u * dx) (y + u * dy) = side phi x y + u * side phi dx dy.
Proof. unfold side. ring. Qed.
Lemma crosses_left_spec phi x y dx dy D :
  crosses_left phi x y dx dy D <-> 0 < D /\ 0 < side phi dx dy /\ side phi x y + D * side phi dx dy = 0.
Proof.
  unfold crosses_left. setoid_rewrite side_along. set (a := side phi x y). set (b := side phi dx dy). split.
  - intros (HD & H1 & H2). split; [done|]. assert (Hb : 0 < b). { pose proof (H1 (D - 1) ltac:(lra)). pose proof (H2 (D + 1) ltac:(lra)). nra. }
    split; [done|]. destruct (Rtotal_order (a + D * b) 0) as [K|[K|K]]; [exfalso|done|exfalso].
    + assert (Hq : 0 < - (a + D * b) / b) by (apply Rdiv_lt_0_compat; lra). specialize (H2 (D + - (a + D * b) / b) ltac:(lra)).
      replace (a + (D + - (a + D * b) / b) * b) with 0 in H2 by (field; lra). lra.
    + assert (Hq : 0 < (a + D * b) / b) by (apply Rdiv_lt_0_compat; lra). specialize (H1 (D - (a + D * b) / b) ltac:(lra)).
      replace (a + (D - (a + D * b) / b) * b) with 0 in H1 by (field; lra). lra.
  - intros (HD & Hb & E). repeat split; [done|intros u Hu; nra|intros u Hu; nra].
Qed.
Lemma side_flip phi x y : side (phi + PI) x y = - side phi x y.
Proof. unfold side. rewrite neg_cos, neg_sin. ring. Qed.
Lemma crosses_flip phi x y dx dy D : crosses_right phi x y dx dy D <-> crosses_left (phi + PI) x y dx dy D.
Proof.
  unfold crosses_left, crosses_right. setoid_rewrite side_flip. split; intros (A & B & C); (split; [done|]); split; intros u Hu; specialize (B u); specialize (C u); lra.
Qed.
Lemma plane_in_spec inf phi nx ny x y dx dy : (forall x y, x * nx + y * ny = side phi x y) ->
  is_crossing inf (crosses_left phi x y dx dy) (plane_in inf nx ny x y dx dy).
Proof.
  intros Hn. unfold is_crossing, plane_in. cbn zeta. rewrite !Hn. setoid_rewrite crosses_left_spec.
  destruct (rgtb_spec (side phi dx dy) 0) as [Hc|Hc].
  - destruct (rgtb_spec (- side phi x y / side phi dx dy) 0) as [Ht|Ht].
    + left. split; [lra|]. split; [lra|]. field. lra.
    + right. split; [done|]. intros u (Hu & _ & E). apply Ht. replace (- side phi x y / side phi dx dy) with u; [lra|]. replace (side phi x y) with (- (u * side phi dx dy)) by lra. field. lra.
  - right. split; [done|]. intros u (_ & K & _). lra.
Qed.
Lemma plane_out_in inf nx ny x y dx dy : plane_out inf nx ny x y dx dy = plane_in inf (- nx) (- ny) x y dx dy.
Proof.
  unfold plane_out, plane_in. cbn zeta. replace (dx * - nx + dy * - ny) with (- (dx * nx + dy * ny)) by ring. set (c := dx * nx + dy * ny).
  replace (- (x * - nx + y * - ny) / - c) with (- (x * nx + y * ny) / c).
  - destruct (rltb_spec c 0), (rgtb_spec (- c) 0); try lra; done.
  - destruct (Req_dec c 0) as [E|E]; [|field; lra]. rewrite E. unfold Rdiv. rewrite Ropp_0, Rinv_0. ring.
Qed.
Lemma to_in_spec inf d s x y dx dy :
  is_crossing inf (crosses_left s x y dx dy) (fst (wedge_to_in inf (mk_wedge d s) x y dx dy)) /\
  is_crossing inf (crosses_right (s + d) x y dx dy) (snd (wedge_to_in inf (mk_wedge d s) x y dx dy)).
Proof.
  unfold wedge_to_in. cbn [fst snd]. split; [apply plane_in_spec; intros; apply n1_side|].
  destruct (plane_in_spec inf (s + d + PI) (wd_n2x (mk_wedge d s)) (wd_n2y (mk_wedge d s)) x y dx dy) as [H|[H1 H2]].
  { intros. rewrite side_flip. apply n2_side. }
  - left. by apply crosses_flip.
  - right. split; [done|]. intros u Hu. apply crosses_flip in Hu. by apply (H2 u).
Qed.
Lemma to_out_spec inf d s x y dx dy :
  is_crossing inf (crosses_right s x y dx dy) (fst (wedge_to_out inf (mk_wedge d s) x y dx dy)) /\
  is_crossing inf (crosses_left (s + d) x y dx dy) (snd (wedge_to_out inf (mk_wedge d s) x y dx dy)).
Proof.
  unfold wedge_to_out. cbn [fst snd]. rewrite !plane_out_in. split.
  - destruct (plane_in_spec inf (s + PI) (- wd_n1x (mk_wedge d s)) (- wd_n1y (mk_wedge d s)) x y dx dy) as [H|[H1 H2]].
    { intros. rewrite side_flip. pose proof (n1_side d s x0 y0). lra. }
    + left. by apply crosses_flip.
    + right. split; [done|]. intros u Hu. apply crosses_flip in Hu. by apply (H2 u).
  - apply plane_in_spec. intros. pose proof (n2_side d s x0 y0). lra.
Qed.
(** Whatever changes on the way changes at a reported distance. *)
Lemma left_between phi x y dx dy u v : 0 < u -> u < v -> side phi (x + u * dx) (y + u * dy) < 0 -> 0 <= side phi (x + v * dx) (y + v * dy) ->
  exists D, u <= D <= v /\ crosses_left phi x y dx dy D.
Proof.
  intros Hu Huv. rewrite !side_along. set (a := side phi x y). set (b := side phi dx dy). intros H1 H2. assert (Hb : 0 < b) by nra.
  exists (- a / b). assert (E : a + - a / b * b = 0) by (field; lra). assert (u <= - a / b <= v) by nra. split; [done|]. apply crosses_left_spec. fold a b. lra.
Qed.
Lemma right_between phi x y dx dy u v : 0 < u -> u < v -> 0 <= side phi (x + u * dx) (y + u * dy) -> side phi (x + v * dx) (y + v * dy) < 0 ->
  exists D, u <= D <= v /\ crosses_right phi x y dx dy D.
Proof.
  intros Hu Huv. rewrite !side_along. set (a := side phi x y). set (b := side phi dx dy). intros H1 H2. assert (Hb : b < 0) by nra.
  exists (- a / b). assert (E : a + - a / b * b = 0) by (field; lra). assert (u <= - a / b <= v) by nra. split; [done|].
  apply crosses_flip, crosses_left_spec. rewrite !side_flip. fold a b. lra.
Qed.
Lemma left_between' phi x y dx dy u v : 0 < u -> u < v -> side phi (x + u * dx) (y + u * dy) <= 0 -> 0 < side phi (x + v * dx) (y + v * dy) ->
  exists D, u <= D <= v /\ crosses_left phi x y dx dy D.
Proof.
  intros Hu Huv. rewrite !side_along. set (a := side phi x y). set (b := side phi dx dy). intros H1 H2. assert (Hb : 0 < b) by nra.
  exists (- a / b). assert (E : a + - a / b * b = 0) by (field; lra). assert (u <= - a / b <= v) by nra. split; [done|]. apply crosses_left_spec. fold a b. lra.
Qed.
Lemma right_between' phi x y dx dy u v : 0 < u -> u < v -> 0 < side phi (x + u * dx) (y + u * dy) -> side phi (x + v * dx) (y + v * dy) <= 0 ->
  exists D, u <= D <= v /\ crosses_right phi x y dx dy D.
Proof.
  intros Hu Huv. rewrite !side_along. set (a := side phi x y). set (b := side phi dx dy). intros H1 H2. assert (Hb : b < 0) by nra.
  exists (- a / b). assert (E : a + - a / b * b = 0) by (field; lra). assert (u <= - a / b <= v) by nra. split; [done|].
  apply crosses_flip, crosses_left_spec. rewrite !side_flip. fold a b. lra.
Qed.
Lemma crosses_left_uniq phi x y dx dy D D' : crosses_left phi x y dx dy D -> crosses_left phi x y dx dy D' -> D = D'.
Proof. rewrite !crosses_left_spec. intros (A & B & C) (A' & B' & C'). nra. Qed.
Lemma crossing_is inf phi x y dx dy D D' : is_crossing inf (crosses_left phi x y dx dy) D -> crosses_left phi x y dx dy D' -> D = D'.
Proof. intros [H|[_ H]] H'; [by eapply crosses_left_uniq|by destruct (H D')]. Qed.
Lemma crossing_is' inf phi x y dx dy D D' : is_crossing inf (crosses_right phi x y dx dy) D -> crosses_right phi x y dx dy D' -> D = D'.
Proof. intros [H|[_ H]] H'; [|by destruct (H D')]. apply crosses_flip in H, H'. by eapply crosses_left_uniq. Qed.
(** Entering between u and v happens at one of the entry distances, leaving at one of the exit distances. *)
Lemma enter_between inf d s x y dx dy u v : 0 < d <= 2 * PI -> 0 < u -> u < v ->
  ~ sector s d (x + u * dx) (y + u * dy) -> sector s d (x + v * dx) (y + v * dy) ->
  u <= fst (wedge_to_in inf (mk_wedge d s) x y dx dy) <= v \/ u <= snd (wedge_to_in inf (mk_wedge d s) x y dx dy) <= v.
Proof.
  intros Hd Hu Huv. destruct (to_in_spec inf d s x y dx dy) as [S1 S2]. rewrite !sector_sides by lra. intros H1 [A B].
  assert (K : (side s (x + u * dx) (y + u * dy) < 0 /\ 0 <= side s (x + v * dx) (y + v * dy)) \/
              (0 < side (s + d) (x + u * dx) (y + u * dy) /\ side (s + d) (x + v * dx) (y + v * dy) <= 0)).
  { destruct (Rlt_dec d PI) as [Hl|Hl].
    - destruct (A Hl). destruct (Rlt_dec (side s (x + u * dx) (y + u * dy)) 0); [left; done|]. right. split; [|done].
      apply Rnot_le_lt. intros K. apply H1. split; intros; lra.
    - assert (side s (x + u * dx) (y + u * dy) < 0 /\ 0 < side (s + d) (x + u * dx) (y + u * dy)) as [P Q].
      { split; apply Rnot_le_lt; intros K; apply H1; (split; intros; [lra|]); [left|right]; lra. }
      destruct (B ltac:(lra)); [left|right]; done. }
  destruct K as [[K1 K2]|[K1 K2]].
  - left. destruct (left_between s x y dx dy u v Hu Huv K1 K2) as (D & HD & C). rewrite (crossing_is _ _ _ _ _ _ _ _ S1 C). lra.
  - right. destruct (right_between' (s + d) x y dx dy u v Hu Huv K1 K2) as (D & HD & C). rewrite (crossing_is' _ _ _ _ _ _ _ _ S2 C). lra.
Qed.
Lemma leave_between inf d s x y dx dy u v : 0 < d <= 2 * PI -> 0 < u -> u < v ->
  sector s d (x + u * dx) (y + u * dy) -> ~ sector s d (x + v * dx) (y + v * dy) ->
  u <= fst (wedge_to_out inf (mk_wedge d s) x y dx dy) <= v \/ u <= snd (wedge_to_out inf (mk_wedge d s) x y dx dy) <= v.
Proof.
  intros Hd Hu Huv. destruct (to_out_spec inf d s x y dx dy) as [S1 S2]. rewrite !sector_sides by lra. intros [A B] H1.
  assert (K : (0 <= side s (x + u * dx) (y + u * dy) /\ side s (x + v * dx) (y + v * dy) < 0) \/
              (side (s + d) (x + u * dx) (y + u * dy) <= 0 /\ 0 < side (s + d) (x + v * dx) (y + v * dy))).
  { destruct (Rlt_dec d PI) as [Hl|Hl].
    - destruct (A Hl). destruct (Rlt_dec (side s (x + v * dx) (y + v * dy)) 0); [left; done|]. right. split; [done|].
      apply Rnot_le_lt. intros K. apply H1. split; intros; lra.
    - assert (side s (x + v * dx) (y + v * dy) < 0 /\ 0 < side (s + d) (x + v * dx) (y + v * dy)) as [P Q].
      { split; apply Rnot_le_lt; intros K; apply H1; (split; intros; [lra|]); [left|right]; lra. }
      destruct (B ltac:(lra)); [left|right]; done. }
  destruct K as [[K1 K2]|[K1 K2]].
  - left. destruct (right_between s x y dx dy u v Hu Huv K1 K2) as (D & HD & C). rewrite (crossing_is' _ _ _ _ _ _ _ _ S1 C). lra.
  - right. destruct (left_between' (s + d) x y dx dy u v Hu Huv K1 K2) as (D & HD & C). rewrite (crossing_is _ _ _ _ _ _ _ _ S2 C). lra.
Qed.
(** Past a reported exit of a wedge below half a turn the ray is out for good. *)
Lemma out_for_good d s x y dx dy D u : 0 < d < PI -> crosses_right s x y dx dy D \/ crosses_left (s + d) x y dx dy D -> D < u ->
  ~ sector s d (x + u * dx) (y + u * dy).
Proof.
  intros Hd H Hu. pose proof PI_RGT_0. rewrite sector_sides by lra. intros [A _]. destruct (A ltac:(lra)) as [A1 A2].
  destruct H as [(_ & _ & H)|(_ & _ & H)]; specialize (H u Hu); lra.
Qed.
(** Past a reported entry of a wedge above half a turn the ray is in for good. *)
Lemma in_for_good d s x y dx dy D u : PI < d <= 2 * PI -> crosses_left s x y dx dy D \/ crosses_right (s + d) x y dx dy D -> D < u ->
  sector s d (x + u * dx) (y + u * dy).
Proof.
  intros Hd H Hu. pose proof PI_RGT_0. rewrite sector_sides by lra. split; [intros; lra|]. intros _.
  destruct H as [(_ & _ & H)|(_ & _ & H)]; specialize (H u Hu); [left|right]; lra.
Qed.

(** * Moving in and out *)
Lemma moving_out_spec d s first x y dx dy : moving_out (mk_wedge d s) first x y dx dy = true <->
  near_line kTolerance (if first then s else s + d) x y /\
  5 / 1000 * kHalfTolerance < (if first then - side s dx dy else side (s + d) dx dy).
Proof.
  unfold moving_out. destruct first; rewrite andb_true_iff.
  - rewrite on_surface1_spec. pose proof (n1_side d s dx dy) as E.
    replace (dx * - wd_n1x (mk_wedge d s) + dy * - wd_n1y (mk_wedge d s)) with (- side s dx dy) by lra. destruct (rgtb_spec (- side s dx dy) (5 / 1000 * kHalfTolerance)); intuition (try discriminate; lra).
  - rewrite on_surface2_spec. pose proof (n2_side d s dx dy) as E.
    replace (dx * - wd_n2x (mk_wedge d s) + dy * - wd_n2y (mk_wedge d s)) with (side (s + d) dx dy) by lra. destruct (rgtb_spec (side (s + d) dx dy) (5 / 1000 * kHalfTolerance)); intuition (try discriminate; lra).
Qed.
Lemma moving_in_spec d s first x y dx dy : moving_in (mk_wedge d s) first x y dx dy = true <->
  near_line kTolerance (if first then s else s + d) x y /\
  (if first then - side s dx dy else side (s + d) dx dy) < 5 / 1000 * kHalfTolerance.
Proof.
  unfold moving_in. destruct first; rewrite andb_true_iff.
  - rewrite on_surface1_spec. pose proof (n1_side d s dx dy) as E.
    replace (dx * - wd_n1x (mk_wedge d s) + dy * - wd_n1y (mk_wedge d s)) with (- side s dx dy) by lra. destruct (rltb_spec (- side s dx dy) (5 / 1000 * kHalfTolerance)); intuition (try discriminate; lra).
  - rewrite on_surface2_spec. pose proof (n2_side d s dx dy) as E.
    replace (dx * - wd_n2x (mk_wedge d s) + dy * - wd_n2y (mk_wedge d s)) with (side (s + d) dx dy) by lra. destruct (rltb_spec (side (s + d) dx dy) (5 / 1000 * kHalfTolerance)); intuition (try discriminate; lra).
Qed.

(** * The sector test of cones and tubes *)
Lemma cyclical_sides tol (include : bool) s d x y : let t := if include then - tol else tol in
  cyclical_sector tol include s d x y = true <->
  (d <= PI -> t <= side s x y /\ side (s + d) x y <= - t) /\ (PI < d -> t <= side s x y \/ side (s + d) x y <= - t).
Proof.
  intros t. unfold cyclical_sector. cbn zeta. fold t. replace (- x * sin s + y * cos s) with (side s x y) by (unfold side; ring).
  replace (- cos (s + d) * y + sin (s + d) * x) with (- side (s + d) x y) by (unfold side; ring).
  destruct (rleb_spec d PI) as [Hd|Hd]; destruct (rgeb_spec (side s x y) t) as [H1|H1]; destruct (rgeb_spec (- side (s + d) x y) t) as [H2|H2]; cbn;
    (split; [intros E; try discriminate E; split; intros; lra|intros [A B]; try reflexivity; try (specialize (A Hd)); try (specialize (B ltac:(lra))); exfalso; lra]).
Qed.
Lemma by_sides' s d x y : 0 < d <= 2 * PI -> sector s d x y <->
  (d <= PI -> 0 <= side s x y /\ side (s + d) x y <= 0) /\ (PI < d -> 0 <= side s x y \/ side (s + d) x y <= 0).
Proof.
  intros Hd. rewrite sector_sides by lra. unfold by_sides. destruct (Rtotal_order d PI) as [H|[->|H]].
  - split; intros [A B]; split; intros; try lra; apply A; lra.
  - rewrite side_flip. split; intros [A B]; (split; [intros|intros; lra]).
    + lra.
    + lra.
  - split; intros [A B]; split; intros; try lra; apply B; lra.
Qed.
(** A point taken by the strict test is at least [tol] inside; a point refused by the generous test is more than [tol] outside. *)
Lemma cyclical_inside tol s d x y x' y' : 0 < d <= 2 * PI -> cyclical_sector tol false s d x y = true -> ~ sector s d x' y' -> tol <= dist2 x y x' y'.
Proof.
  intros Hd H Hn. apply cyclical_sides in H. destruct H as [A B]. rewrite by_sides' in Hn by lra.
  pose proof (side_lipschitz s x y x' y'). pose proof (side_lipschitz' (s + d) x y x' y'). destruct (Rle_dec d PI) as [Hp|Hp].
  - destruct (A Hp). destruct (Rle_dec 0 (side s x' y')); [|lra]. destruct (Rle_dec (side (s + d) x' y') 0); [|lra]. exfalso. apply Hn. split; intros; lra.
  - assert (side s x' y' < 0 /\ 0 < side (s + d) x' y') as [P Q] by (split; apply Rnot_le_lt; intros K; apply Hn; (split; intros; [lra|]); [left|right]; lra).
    destruct (B ltac:(lra)); lra.
Qed.
Lemma cyclical_outside tol s d x y x' y' : 0 < d <= 2 * PI -> cyclical_sector tol true s d x y = false -> sector s d x' y' -> tol < dist2 x y x' y'.
Proof.
  intros Hd H Hn. rewrite by_sides' in Hn by lra. destruct Hn as [A B].
  assert (K : ~ cyclical_sector tol true s d x y = true) by (rewrite H; done). rewrite (cyclical_sides tol true s d x y) in K.
  pose proof (side_lipschitz' s x y x' y'). pose proof (side_lipschitz (s + d) x y x' y'). destruct (Rle_dec d PI) as [Hp|Hp].
  - destruct (A Hp). destruct (Rle_dec (- tol) (side s x y)); [|lra]. destruct (Rle_dec (side (s + d) x y) tol); [|lra]. exfalso. apply K. split; intros; lra.
  - assert (side s x y < - tol /\ tol < side (s + d) x y) as [P Q] by (split; apply Rnot_le_lt; intros Q0; apply K; (split; intros; [lra|]); [left|right]; lra).
    destruct (B ltac:(lra)); lra.
Qed.
Lemma cyclical_strict tol s d x y : 0 <= tol -> 0 < d <= 2 * PI -> cyclical_sector tol false s d x y = true -> sector s d x y.
Proof.
  intros Ht Hd H. apply cyclical_sides in H. destruct H as [A B]. apply by_sides'; [lra|]. split; intros K; [destruct (A K); lra|destruct (B K); lra].
Qed.
Lemma cyclical_generous tol s d x y : 0 <= tol -> 0 < d <= 2 * PI -> sector s d x y -> cyclical_sector tol true s d x y = true.
Proof.
  intros Ht Hd H. apply by_sides' in H; [|lra]. destruct H as [A B]. apply cyclical_sides. split; intros K; [destruct (A K); lra|destruct (B K); lra].
Qed.

(** * The start angle *)
Lemma turns_bound x : 0 <= fmod_turn x < 2 * PI.
Proof.
  pose proof PI_RGT_0 as HP. unfold fmod_turn, turns. destruct (base_Int_part (x / (2 * PI))) as [H1 H2].
  assert (E : x = x / (2 * PI) * (2 * PI)) by (field; lra). set (q := x / (2 * PI)) in *. set (n := IZR (Int_part q)) in *. nra.
Qed.
Lemma checked_sphi_turns d s : exists k : Z, checked_sphi d s = s + 2 * IZR k * PI.
Proof.
  unfold checked_sphi. assert (H : exists k, (if rltb s 0 then 2 * PI - fmod_turn (Rabs s) else fmod_turn s) = s + 2 * IZR k * PI).
  { destruct (rltb_spec s 0) as [H|H].
    - exists (turns (Rabs s) + 1)%Z. unfold fmod_turn. rewrite plus_IZR. rewrite (Rabs_left s) by lra. ring.
    - exists (- turns s)%Z. unfold fmod_turn. rewrite opp_IZR. ring. }
  destruct H as [k Hk]. rewrite Hk. destruct (rgtb _ _); [exists (k - 1)%Z; rewrite minus_IZR; ring|by exists k].
Qed.
Lemma checked_sphi_range d s : 0 < d <= 2 * PI -> - d < checked_sphi d s /\ checked_sphi d s + d <= 2 * PI.
Proof.
  intros Hd. unfold checked_sphi. pose proof (turns_bound s). pose proof (turns_bound (Rabs s)).
  assert (H1 : 0 <= (if rltb s 0 then 2 * PI - fmod_turn (Rabs s) else fmod_turn s) <= 2 * PI) by (destruct (rltb s 0); lra).
  set (v := if rltb s 0 then _ else _) in *. destruct (rgtb_spec (v + d) (2 * PI)); lra.
Qed.
Lemma cos_turns x (k : Z) : cos (x + 2 * IZR k * PI) = cos x /\ sin (x + 2 * IZR k * PI) = sin x.
Proof.
  destruct (Z_le_gt_dec 0 k) as [H|H].
  - rewrite <- (Z2Nat.id k) by lia. rewrite <- INR_IZR_INZ. split; [apply cos_period|apply sin_period].
  - set (n := Z.to_nat (- k)). assert (E : IZR k = - INR n). { unfold n. rewrite INR_IZR_INZ, Z2Nat.id by lia. rewrite opp_IZR. ring. }
    rewrite E. rewrite <- (cos_period (x + 2 * - INR n * PI) n), <- (sin_period (x + 2 * - INR n * PI) n).
    replace (x + 2 * - INR n * PI + 2 * INR n * PI) with x by ring. done.
Qed.
Lemma sector_turns s d (k : Z) x y : sector (s + 2 * IZR k * PI) d x y <-> sector s d x y.
Proof.
  assert (H : forall s k x y, sector s d x y -> sector (s + 2 * IZR k * PI) d x y).
  { clear. intros s k x y (phi & Hp & r & Hr & -> & ->). exists (phi + 2 * IZR k * PI). split; [lra|]. exists r. destruct (cos_turns phi k) as [-> ->]. done. }
  split; [|apply H]. intros K. apply (H _ (- k)%Z) in K. rewrite opp_IZR in K. replace (s + 2 * IZR k * PI + 2 * - IZR k * PI) with s in K by ring. done.
Qed.
Lemma checked_sector d s x y : sector (checked_sphi d s) d x y <-> sector s d x y.
Proof. destruct (checked_sphi_turns d s) as [k ->]. apply sector_turns. Qed.

(** * The contract of the cone kernels *)
Lemma checked_half d : 0 < d <= 2 * PI -> rltb (checked_dphi d) PI = rltb d PI.
Proof.
  intros Hd. pose proof PI_RGT_0. assert (H1 : 2 < PI) by (pose proof PI2_3_2; lra). unfold checked_dphi. destruct (rgeb_spec d (2 * PI - 5 / 10 * / 1000000000)) as [H2|H2]; [|done].
  destruct (rltb_spec d PI), (rltb_spec (2 * PI) PI); try lra; done.
Qed.
Lemma cone_kernel_same s d fi x y : 0 < d <= 2 * PI -> w_kernel (cone_wedge s d) fi x y = wedge_kernel (mk_wedge d s) fi x y.
Proof.
  intros Hd. pose proof (checked_half d Hd) as H. unfold cone_wedge. cbn [w_kernel]. unfold wedge_kernel. cbn [set_start set_delta wd_dphi]. rewrite H. done.
Qed.
Lemma cone_decides s d : 0 < d <= 2 * PI -> wedge_decides (cone_wedge s d) (sector s d).
Proof. intros Hd x y. rewrite cone_kernel_same by done. rewrite kernel_out. by rewrite sector_sides. Qed.
Lemma cone_tolerant s d : 0 < d <= 2 * PI -> wedge_tolerant (cone_wedge s d) (sector s d).
Proof.
  intros Hd. split; intros x y; rewrite cone_kernel_same by done; rewrite kernel_fi; cbn zeta; cbn [fst snd]; pose proof (cone_decides s d Hd x y) as E; rewrite cone_kernel_same in E by done;
    destruct (snd (wedge_kernel (mk_wedge d s) false x y)); destruct (on_surface1 _ x y || _); cbn; intuition discriminate.
Qed.
Lemma cone_safe s d : 0 < d <= 2 * PI -> wedge_safe (cone_wedge s d) (sector s d).
Proof.
  intros Hd. pose proof (checked_half d Hd) as H. split.
  - intros x y x' y' Hq. pose proof (safety_in_le d s x y x' y' Hd Hq) as K. unfold cone_wedge. cbn [w_safety_in]. unfold wedge_safety_in in *. cbn [set_start set_delta wd_dphi] in *. rewrite H. exact K.
  - intros x y x' y' _ Hq. pose proof (safety_out_le d s x y x' y' Hd Hq) as K. unfold cone_wedge. cbn [w_safety_out]. unfold wedge_safety_out in *. cbn [set_start set_delta wd_dphi] in *. rewrite H. exact K.
Qed.
Lemma sector_convex s d : 0 < d <= PI -> convex2 (sector s d).
Proof.
  intros Hd x y x' y' u. pose proof PI_RGT_0. rewrite !by_sides' by lra. intros [A _] [B _] Hu. destruct (A ltac:(lra)) as [A1 A2]. destruct (B ltac:(lra)) as [B1 B2].
  assert (E : forall phi, side phi ((1 - u) * x + u * x') ((1 - u) * y + u * y') = (1 - u) * side phi x y + u * side phi x' y') by (intros; unfold side; ring).
  rewrite !E. split; intros; [|lra]. split; nra.
Qed.
