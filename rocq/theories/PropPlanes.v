(** C48: families of planes and plane shells.  See properties.jsonl; shells are in PropShell.v. *)
From Coq Require Import Reals Lra Lia Bool.
From stdpp Require Import base list option numbers tactics.
From Verif Require Import Real3 BoxModel AABBModel OrbSpec ScaledSpec PlanesModel PlanesSpec PlanesProofs PlanesProofs2 PlanesProofs3 NonZeroProofs.
Import stdpp.list.
Local Open Scope R_scope.

(** NonZero in binary64, round to nearest with any choice for ties: doubles of size 2^-46 or more are left as they are. *)
Theorem C48_nonzero choice choice' x : is_double x → kAbsorb <= Rabs x →
  rnd choice (x + (if Rlt_dec x 0 then - tiny_double choice' else tiny_double choice')) = nz x.
Proof. intros Hx H. rewrite nz_large by exact H. by apply nonzero_absorbed. Qed.

(** One plane. *)
Section OnePlane.
Variables (inf : R) (pl : plane).
Let n := pl_n pl. Let k := pl_d pl.
Theorem C48_plane_contains p : plane_contains pl p = true ↔ height n k p < 0.
Proof using. unfold plane_contains, n, k. rewrite height_dist. apply rltb_true. Qed.
Theorem C48_plane_inside p :
  (plane_inside pl p = kInside ↔ height n k p <= - kTolerance) ∧ (plane_inside pl p = kOutside ↔ kTolerance <= height n k p).
Proof using.
  unfold n, k. rewrite !height_dist. unfold plane_inside. pose proof kTolerance_pos. cbv zeta.
  destruct (rltb_spec (Rabs (pl_dist pl p)) kTolerance) as [Hs|Hs].
  - apply Rabs_def2 in Hs. split; split; intros; [discriminate|lra|discriminate|lra].
  - assert (pl_dist pl p <= - kTolerance ∨ kTolerance <= pl_dist pl p) as Hc.
    { destruct (Rle_dec (pl_dist pl p) (- kTolerance)); [by left|]. right. destruct (Rle_dec kTolerance (pl_dist pl p)); [done|]. exfalso. apply Hs, Rabs_def1; lra. }
    destruct (rltb_spec (pl_dist pl p) 0); split; split; intros; try discriminate; try done; lra.
Qed.
(** Entry from above: the height is positive before the answer and zero there; minus infinity when moving away. *)
Theorem C48_plane_to_in p d : 0 <= height n k p →
  (vdot n d <= - kAbsorb → let D := plane_to_in inf pl p d in
     0 <= D ∧ height n k (along p d D) = 0 ∧ ∀ u, u < D → 0 < height n k (along p d u)) ∧
  (0 <= vdot n d → plane_to_in inf pl p d = - inf).
Proof using.
  unfold n, k. rewrite height_dist. intros Hp. pose proof kAbsorb_pos as Ha. pose proof kTolerance_pos.
  assert (E : vdot (pl_n pl) d = pl_proj pl d) by apply vdot_comm. rewrite E. split.
  - intros Hd. unfold plane_to_in. cbv zeta. rewrite nz_large by (rewrite Rabs_left; lra).
    destruct (rltb_spec (pl_proj pl d) 0); [|lra]. destruct (rgtb_spec (pl_dist pl p) (- kTolerance)); [|lra]. cbn [andb].
    set (D := - pl_dist pl p / pl_proj pl d). assert (ED : pl_dist pl p + D * pl_proj pl d = 0) by (unfold D; field; lra). clearbody D.
    split; [nra|]. split; [rewrite height_dist, dist_along; exact ED|]. intros u Hu. rewrite height_dist, dist_along. nra.
  - intros Hd. unfold plane_to_in. pose proof (nz_pos _ Hd). destruct (rltb_spec (nz (pl_proj pl d)) 0); [lra|done].
Qed.
(** Exit from below: the height is at most zero up to the answer and positive after; infinity when moving down,
    minus infinity for points above. *)
Theorem C48_plane_to_out p d :
  (height n k p <= 0 → kAbsorb <= vdot n d → let D := plane_to_out inf pl p d in
     0 <= D ∧ (∀ u, u <= D → height n k (along p d u) <= 0) ∧ ∀ u, D < u → 0 < height n k (along p d u)) ∧
  (height n k p <= 0 → vdot n d < 0 → plane_to_out inf pl p d = inf) ∧
  (kTolerance < height n k p → plane_to_out inf pl p d = - inf).
Proof using.
  unfold n, k. rewrite height_dist. pose proof kAbsorb_pos as Ha. pose proof kTolerance_pos.
  assert (E : vdot (pl_n pl) d = pl_proj pl d) by apply vdot_comm. rewrite E. unfold plane_to_out. cbv zeta. split; [|split].
  - intros Hp Hd. rewrite nz_large by (rewrite Rabs_pos_eq; lra).
    destruct (rgtb_spec (pl_proj pl d) 0); [|lra]. destruct (rltb_spec (pl_dist pl p) kTolerance); [|lra]. cbn [andb].
    set (D := - pl_dist pl p / pl_proj pl d). assert (ED : pl_dist pl p + D * pl_proj pl d = 0) by (unfold D; field; lra). clearbody D.
    split; [nra|]. split; intros u Hu; rewrite height_dist, dist_along; nra.
  - intros Hp Hd. pose proof (nz_neg _ Hd). destruct (rgtb_spec (nz (pl_proj pl d)) 0); [lra|]. cbn [andb].
    destruct (rgtb_spec (pl_dist pl p) kTolerance); [lra|done].
  - intros Hp. destruct (rltb_spec (pl_dist pl p) kTolerance); [lra|]. rewrite andb_false_r.
    destruct (rgtb_spec (pl_dist pl p) kTolerance); [done|lra].
Qed.
(** Safeties with a unit normal: the distance to the half space from above, to its complement from below; both reached. *)
Theorem C48_plane_safety p : vdot n n = 1 →
  clear_of (under n k) p (plane_safety_in pl p) ∧
  (0 <= plane_safety_in pl p → ∃ q, under n k q ∧ vdist p q = plane_safety_in pl p) ∧
  deep_in (under n k) p (plane_safety_out pl p) ∧
  (0 <= plane_safety_out pl p → escapes (under n k) p (plane_safety_out pl p)).
Proof using.
  intros Hn. unfold plane_safety_in, plane_safety_out, under, n, k in *.
  assert (Hs : short_normals (halves [pl])) by (apply short_iff; intros q [<-|[]]; lra).
  assert (Hu : unit_normals (halves [pl])) by (apply unit_iff; intros q [<-|[]]; lra).
  assert (Ec : ∀ q, cut (halves [pl]) q ↔ height (pl_n pl) (pl_d pl) q <= 0).
  { intros q. rewrite cut_iff, height_dist. split; [intros H; apply H; by left|intros H x [<-|[]]; done]. }
  split; [|split; [|split]].
  - intros q Hq. apply (clear_of_dist [pl] p (pl_dist pl p) pl Hs (or_introl eq_refl) (Rle_refl _)). by rewrite Ec.
  - intros H. exists (vsub p (vscale (pl_dist pl p) (pl_n pl))). split.
    + rewrite height_dist. replace (vsub p (vscale (pl_dist pl p) (pl_n pl))) with (along p (pl_n pl) (- pl_dist pl p))
        by (apply v3_eq; unfold along, vsub, vadd, vscale; cbn; ring). rewrite dist_up by done. lra.
    + unfold vdist. replace (vsub p (vsub p (vscale (pl_dist pl p) (pl_n pl)))) with (vscale (pl_dist pl p) (pl_n pl))
        by (apply v3_eq; unfold vsub, vscale; cbn; ring). rewrite vmag_scale, Rabs_pos_eq by done. unfold vmag. rewrite Hn, sqrt_1. ring.
  - intros q Hq. rewrite <- Ec. assert (G : ∀ x, In x [pl] → pl_dist x p <= - - pl_dist pl p) by (intros x [<-|[]]; lra). exact (deep_of_dist [pl] p _ Hs G q Hq).
  - intros H e He. destruct (escapes_of_dist [pl] p (- pl_dist pl p) pl Hu (or_introl eq_refl) H ltac:(lra) e He) as (q & Hq & Hn').
    exists q. split; [done|]. by rewrite <- Ec.
Qed.
End OnePlane.
Print Assumptions C48_nonzero.
Print Assumptions C48_plane_contains.
Print Assumptions C48_plane_inside.
Print Assumptions C48_plane_to_in.
Print Assumptions C48_plane_to_out.
Print Assumptions C48_plane_safety.
(** The plane x = 1, and the slab -1 <= x <= 1. *)
Definition xp : plane := Plane (V3 1 0 0) (-1).
Definition xm : plane := Plane (V3 (-1) 0 0) (-1).
Example xp_unit : vdot (pl_n xp) (pl_n xp) = 1 ∧ height (pl_n xp) (pl_d xp) (V3 3 0 0) = 2.
Proof. unfold height, vdot. cbn. lra. Qed.
(** A ray parallel to the plane below it does not get infinity but the height divided by 1e-30. *)
Theorem C48_parallel_refuted inf : 10 ^ 31 < inf →
  let p := V3 0 0 0 in let d := V3 0 1 0 in
  plane_to_out inf xp p d = 10 ^ 30 ∧ (∀ u, height (pl_n xp) (pl_d xp) (along p d u) < 0).
Proof.
  intros Hi p d. unfold plane_to_out. assert (E : pl_proj xp d = 0) by (unfold pl_proj, vdot; cbn; ring). rewrite E, nz_zero.
  pose proof kTiny_pos. pose proof kTolerance_pos.
  assert (Ed : pl_dist xp p = -1) by (unfold pl_dist, vdot; cbn; ring). rewrite Ed. cbv zeta.
  destruct (rgtb_spec kTiny 0); [|lra]. destruct (rltb_spec (-1) kTolerance); [|lra]. cbn [andb]. split.
  - unfold kTiny, Rdiv. rewrite Rinv_inv. ring.
  - intros u. unfold height. cbn. lra.
Qed.
Print Assumptions C48_parallel_refuted.

(** Families of planes. *)
Section Family.
Variables (inf : R) (P : planes).
Let H := halves (ps_list P).
Theorem C48_contains p : ps_convex P = true → planes_contains P p = true ↔ cut_open H p.
Proof using. apply contains_convex. Qed.
(** Classes of the convex family, by heights. *)
Theorem C48_inside p : ps_convex P = true →
  (planes_inside P p = kInside ↔ ∀ n k, In (n, k) H → height n k p <= - kTolerance) ∧
  (planes_inside P p = kOutside ↔ ∃ n k, In (n, k) H ∧ kTolerance < height n k p).
Proof using.
  intros E. unfold planes_inside, H. rewrite E, loop_convex_in, loop_convex_out by discriminate. split; split.
  - intros [_ G] n k Hi. apply in_halves in Hi. exact (eq_ind_r (λ x, x <= _) (G _ Hi) (height_dist (Plane n k) p)).
  - intros G. split; [done|]. intros [n k] Hi. rewrite <- height_dist. apply G, in_halves, Hi.
  - intros ([n k] & Hi & G). exists n, k. rewrite in_halves. split; [done|]. rewrite <- height_dist in G. done.
  - intros (n & k & Hi & G). apply in_halves in Hi. exists (Plane n k). split; [done|]. by rewrite <- height_dist.
Qed.
(** What the classes mean for distances: inside points have room all round, outside points are away. *)
Theorem C48_inside_room p : ps_convex P = true → short_normals H →
  (planes_inside P p = kInside → deep_in (cut H) p kTolerance) ∧
  (planes_inside P p = kOutside → clear_of (cut H) p kTolerance ∧ ¬ cut H p).
Proof using.
  intros E Hs. unfold planes_inside. rewrite E. split.
  - rewrite loop_convex_in. intros [_ G]. by apply deep_of_dist.
  - rewrite loop_convex_out by discriminate. intros (pl & Hi & G). pose proof kTolerance_pos.
    split; [apply (clear_of_dist _ _ _ pl); [done|done|lra]|]. unfold H. rewrite cut_iff. intros K. specialize (K _ Hi). lra.
Qed.
(** With unit normals, a point of the solid not classified inside has the outside within the tolerance. *)
Theorem C48_inside_tight p : ps_convex P = true → unit_normals H → planes_inside P p ≠ kInside → escapes (cut H) p kTolerance.
Proof using.
  intros E Hu G. unfold planes_inside in G. rewrite E, loop_convex_in in G. pose proof kTolerance_pos.
  assert (∃ pl, In pl (ps_list P) ∧ - kTolerance < pl_dist pl p) as (pl & Hi & Hd).
  { clear -G. induction (ps_list P) as [|x l IH]; [exfalso; apply G; split; [done|intros ? []]|].
    destruct (Rle_dec (pl_dist x p) (- kTolerance)) as [Hx|Hx]; [|exists x; split; [by left|lra]].
    destruct IH as (q & ? & ?); [|exists q; split; [by right|done]]. intros [_ K]. apply G. split; [done|]. intros y [<-|Hy]; auto. }
  apply (escapes_of_dist _ _ _ pl); [done|done|lra|lra].
Qed.
(** The non-convex family: inside when under some plane, outside when above all. *)
Theorem C48_inside_union p : ps_convex P = false →
  (planes_inside P p = kInside ↔ ∃ n k, In (n, k) H ∧ height n k p < - kTolerance) ∧
  (planes_inside P p = kOutside ↔ ∀ n k, In (n, k) H → kTolerance <= height n k p).
Proof using.
  intros E. unfold planes_inside, H. rewrite E, loop_concave_out, loop_concave_in by discriminate. split; split.
  - intros ([n k] & Hi & G). exists n, k. rewrite in_halves. split; [done|]. rewrite <- height_dist in G. done.
  - intros (n & k & Hi & G). apply in_halves in Hi. exists (Plane n k). split; [done|]. by rewrite <- height_dist.
  - intros [_ G] n k Hi. apply in_halves in Hi. specialize (G _ Hi). by rewrite <- height_dist in G.
  - intros G. split; [done|]. intros [n k] Hi. rewrite <- height_dist. apply G, in_halves, Hi.
Qed.
(** The class against one plane; an index beyond the family reads out of bounds. *)
Theorem C48_inside_one p i :
  match planes_inside_one P p i with
  | Some kInside => ∃ pl, ps_list P !! i = Some pl ∧ height (pl_n pl) (pl_d pl) p <= - kTolerance
  | Some kOutside => ∃ pl, ps_list P !! i = Some pl ∧ kTolerance < height (pl_n pl) (pl_d pl) p
  | Some kSurface => ∃ pl, ps_list P !! i = Some pl ∧ - kTolerance < height (pl_n pl) (pl_d pl) p <= kTolerance
  | None => (length (ps_list P) <= i)%nat
  end.
Proof using.
  unfold planes_inside_one. destruct (ps_list P !! i) as [pl|] eqn:L; cbn [mbind option_bind]; [|by apply lookup_ge_None].
  unfold step_convex. pose proof kTolerance_pos.
  destruct (rgtb_spec (pl_dist pl p) kTolerance); cbn [is_in andb]; [exists pl; by rewrite height_dist|].
  destruct (rgtb_spec (pl_dist pl p) (- kTolerance)); exists pl; rewrite height_dist; split; try done; lra.
Qed.
(** Set: the plane with that normal through that point, the others and the convexity as they were. *)
Theorem C48_set i normal origin : fix_zeroes normal ≠ vzero →
  match planes_set P i normal origin with
  | Some P' => ps_convex P' = ps_convex P ∧ length (ps_list P') = length (ps_list P) ∧
      (∀ j, j ≠ i → ps_list P' !! j = ps_list P !! j) ∧
      ∃ pl, ps_list P' !! i = Some pl ∧ vdot (pl_n pl) (pl_n pl) = 1 ∧ height (pl_n pl) (pl_d pl) origin = 0 ∧
        ∀ q, under (pl_n pl) (pl_d pl) q ↔ vdot (fix_zeroes normal) (vsub q origin) <= 0
  | None => (length (ps_list P) <= i)%nat
  end.
Proof using.
  intros Hf. unfold planes_set. destruct (Nat.ltb_spec i (length (ps_list P))) as [Hi|Hi]; [|done]. cbn [ps_convex ps_list].
  split; [done|]. split; [apply insert_length|]. split; [intros j Hj; by apply list_lookup_insert_ne|].
  exists (set_plane normal origin). split; [by apply list_lookup_insert|].
  destruct (set_plane_spec normal origin Hf) as [Hu Hd]. split; [done|].
  assert (Hm : 0 < vmag (fix_zeroes normal)).
  { pose proof (vmag_nonneg (fix_zeroes normal)). destruct (Req_dec (vmag (fix_zeroes normal)) 0) as [Z|]; [|lra].
    exfalso. pose proof (vmag_sqr (fix_zeroes normal)) as Q. rewrite Z in Q. apply Hf. unfold vdot in Q.
    apply v3_eq; cbn [vzero vx vy vz]; nra. }
  split; [rewrite height_dist, Hd; replace (vsub origin origin) with vzero by (apply v3_eq; unfold vsub; cbn; ring);
          replace (vdot (fix_zeroes normal) vzero) with 0 by (unfold vdot; cbn; ring); field; lra|].
  intros q. unfold under. rewrite height_dist, Hd. split; intros G.
  - apply (Rmult_le_reg_r (/ vmag (fix_zeroes normal))); [by apply Rinv_0_lt_compat|]. rewrite Rmult_0_l. exact G.
  - apply (Rmult_le_reg_r (vmag (fix_zeroes normal))); [done|]. rewrite Rmult_0_l. unfold Rdiv. rewrite Rmult_assoc, Rinv_l by lra. lra.
Qed.
Theorem C48_set_distance i normal k :
  planes_set_distance P i normal k =
    if decide (i < length (ps_list P))%nat then Some (Planes (<[i := Plane normal k]> (ps_list P)) (ps_convex P)) else None.
Proof using. unfold planes_set_distance. destruct (Nat.ltb_spec i (length (ps_list P))); case_decide; try done; lia. Qed.
(** FlipSign: the complementary half space; twice is nothing. *)
Theorem C48_flip i P' : planes_flip P i = Some P' →
  (∀ j, j ≠ i → ps_list P' !! j = ps_list P !! j) ∧ ps_convex P' = ps_convex P ∧
  (∃ pl pl', ps_list P !! i = Some pl ∧ ps_list P' !! i = Some pl' ∧
     ∀ q, height (pl_n pl') (pl_d pl') q = - height (pl_n pl) (pl_d pl) q) ∧
  planes_flip P' i = Some P.
Proof using.
  unfold planes_flip. destruct (ps_list P !! i) as [pl|] eqn:L; cbn [mbind option_bind]; [|done]. intros [= <-]. cbn [ps_list ps_convex].
  pose proof (lookup_lt_Some _ _ _ L) as Hl.
  split; [intros j Hj; by apply list_lookup_insert_ne|]. split; [done|].
  rewrite list_lookup_insert by done. split.
  - exists pl, (flip_sign pl). split; [done|]. split; [done|]. intros q. rewrite !height_dist. apply flip_dist.
  - cbn [mbind option_bind]. f_equal. destruct P as [l c]. cbn in *. f_equal. rewrite list_insert_insert.
    replace (flip_sign (flip_sign pl)) with pl; [by apply list_insert_id|]. destruct pl as [[x y z] k].
    unfold flip_sign, vneg, vscale. cbn. f_equal; [f_equal|]; ring.
Qed.
(** Distance(point, direction) from strictly inside: where the ray leaves, infinity when it does not. *)
Theorem C48_distance p d : cut_open H p → leaves inf (cut H) p d (planes_distance inf P p d).
Proof using. apply planes_distance_leaves. Qed.
(** Distance(point) as the safety of inside points (pointInsideT = false): room all round, and no more. *)
Theorem C48_safety_out p : cut H p → short_normals H →
  let s := planes_safety inf false P p in deep_in (cut H) p s ∧ (unit_normals H → s < inf → escapes (cut H) p s).
Proof using.
  intros Hp Hs s. destruct (planes_safety_min inf P p Hp) as (A & B & C). fold s in A, B, C. split.
  - apply deep_of_dist; [done|]. intros pl Hi. specialize (B _ Hi). lra.
  - intros Hu Hl. destruct C as [C|(pl & Hi & C)]; [lra|]. unfold H in Hp. rewrite cut_iff in Hp. specialize (Hp _ Hi).
    apply (escapes_of_dist _ _ _ pl); [done|done|lra|lra].
Qed.
(** Distance(point) as the safety of outside points (pointInsideT = true): no more than the distance to the solid. *)
Theorem C48_safety_in p : short_normals H → ¬ cut H p → clear_of (cut H) p (planes_safety inf true P p).
Proof using.
  intros Hs Hp. destruct (planes_safety_true inf P p) as (A & B & C).
  assert (∃ pl, In pl (ps_list P) ∧ 0 < pl_dist pl p) as (pl & Hi & Hd).
  { unfold H in Hp. rewrite cut_iff in Hp. clear -Hp. induction (ps_list P) as [|x l IH]; [exfalso; apply Hp; intros ? []|].
    destruct (Rle_dec (pl_dist x p) 0) as [Hx|Hx]; [|exists x; split; [by left|lra]].
    destruct IH as (q & ? & ?); [|exists q; split; [by right|done]]. intros K. apply Hp. intros y [<-|Hy]; auto. }
  apply (clear_of_dist _ _ _ pl); [done|done|]. apply B; [done|lra].
Qed.
(** Assignment copies the planes, and keeps the convexity of the target. *)
Theorem C48_assign_refuted : ¬ (∀ l r, planes_assign l r = r) ∧ ∀ r, ps_list (planes_assign P r) = ps_list r ∧ ps_convex (planes_assign P r) = ps_convex P.
Proof using. split; [|done]. intros G. specialize (G (Planes [] true) (Planes [] false)). by cbv in G. Qed.
(** Contains of a non-convex family is true everywhere. *)
Theorem C48_contains_union_refuted p : ps_convex P = false → planes_contains P p = true.
Proof using. apply contains_concave. Qed.
End Family.
Print Assumptions C48_contains.
Print Assumptions C48_inside.
Print Assumptions C48_inside_room.
Print Assumptions C48_inside_tight.
Print Assumptions C48_inside_union.
Print Assumptions C48_inside_one.
Print Assumptions C48_set.
Print Assumptions C48_set_distance.
Print Assumptions C48_flip.
Print Assumptions C48_distance.
Print Assumptions C48_safety_out.
Print Assumptions C48_safety_in.
Print Assumptions C48_assign_refuted.
Print Assumptions C48_contains_union_refuted.
Definition slab : planes := Planes [xp; xm] true.
Lemma slab_heights p : (∀ pl, In pl (ps_list slab) → pl_dist pl p <= 0) ↔ -1 <= vx p <= 1.
Proof.
  split; [intros K; pose proof (K xp (or_introl eq_refl)); pose proof (K xm (or_intror (or_introl eq_refl)))
         |intros K pl [<-|[<-|[]]]]; unfold pl_dist, vdot in *; cbn in *; lra.
Qed.
Example slab_points : unit_normals (halves (ps_list slab)) ∧ cut (halves (ps_list slab)) (V3 1 5 5) ∧
  cut_open (halves (ps_list slab)) (V3 0 5 5) ∧ ¬ cut (halves (ps_list slab)) (V3 3 0 0).
Proof.
  split; [apply unit_iff; intros pl [<-|[<-|[]]]; unfold vdot; cbn; lra|]. split; [apply cut_iff, slab_heights; cbn; lra|].
  split; [apply cut_open_iff; intros pl [<-|[<-|[]]]; unfold pl_dist, vdot; cbn; lra|].
  rewrite cut_iff. intros K. apply slab_heights in K. cbn in K. lra.
Qed.
Example slab_union : planes_contains (Planes [xp] false) (V3 3 0 0) = true ∧ ¬ some_under (halves [xp]) (V3 3 0 0).
Proof.
  split; [by apply C48_contains_union_refuted|]. intros (n & d & Hi & Hu). apply in_halves in Hi as [[= <- <-]|[]].
  unfold under, height in Hu. cbn in Hu. lra.
Qed.
(** The parameter named pointInsideT works the other way round: true, for a point inside, sees no plane. *)
Theorem C48_safety_flag_refuted inf : planes_safety inf true slab (V3 0 0 0) = inf ∧ cut_open (halves (ps_list slab)) (V3 0 0 0).
Proof.
  split; [|apply cut_open_iff; intros pl [<-|[<-|[]]]; unfold pl_dist, vdot; cbn; lra].
  unfold planes_safety. cbn -[pl_dist].
  assert (pl_dist xp (V3 0 0 0) = -1 ∧ pl_dist xm (V3 0 0 0) = -1) as [-> ->] by (unfold pl_dist, vdot; cbn; lra).
  destruct (rgeb_spec (-1) 0); [lra|done].
Qed.
(** Distance(point, direction) is no entry distance: from x = 3 towards the slab it is the face x = 1, but moving
    away from a half space that the ray never enters it is the next plane ahead. *)
Theorem C48_distance_entry_refuted inf : 10 < inf →
  let P := Planes [Plane (V3 1 0 0) (-1); Plane (V3 0 1 0) (-1)] true in let p := V3 3 0 0 in let d := V3 0 1 0 in
  planes_distance inf P p d = 1 ∧ ∀ u, ¬ cut (halves (ps_list P)) (along p d u).
Proof.
  intros Hi P p d. split.
  - unfold planes_distance, P. cbn -[pl_dist pl_proj].
    assert (pl_proj (Plane (V3 1 0 0) (-1)) d = 0 ∧ pl_proj (Plane (V3 0 1 0) (-1)) d = 1) as [-> ->] by (unfold pl_proj, vdot; cbn; lra).
    assert (pl_dist (Plane (V3 0 1 0) (-1)) p = -1) as -> by (unfold pl_dist, vdot; cbn; lra).
    destruct (reqb_spec 0 0); [|lra]. destruct (reqb_spec 1 0); [lra|]. replace (- -1 / 1) with 1 by field.
    destruct (rgeb_spec 1 0); [|lra]. destruct (rltb_spec 1 inf); [done|lra].
  - intros u K. rewrite cut_iff in K. specialize (K _ (or_introl eq_refl)). unfold pl_dist, vdot in K. cbn in K. lra.
Qed.
Print Assumptions C48_safety_flag_refuted.
Print Assumptions C48_distance_entry_refuted.
