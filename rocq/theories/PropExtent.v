(** Bounding boxes of placed volumes and assemblies. *)
From Coq Require Import Reals Lra Psatz Lia.
From stdpp Require Import list option.
From Verif Require Import Real3 AABBModel AABBSpec AABBProofs TransModel TransSpec TransProofs ExtentModel ExtentSpec ExtentProofs SearchSpec.
Import stdpp.list.
Local Open Scope R_scope.

(** ** ABBoxManager::ComputeABBox (source/ABBoxManager.cpp:109-142) *)
(** The image of every point of the extent is in the box, even without the margin; and the box without the margin
    is the smallest one, if the image lies within the numbers used as infinity. *)
Theorem C39_abbox : ∀ inf lower upper t p, in_box (Box lower upper) p →
  in_interior (compute_abbox inf lower upper t) (inverse_transform t p) ∧ in_box (shrunk (1 / 1000) (compute_abbox inf lower upper t)) (inverse_transform t p).
Proof.
  intros inf lower upper t p H. pose proof (abbox_in inf lower upper t p H). split; [|done]. by eapply (interior_shrunk (1 / 1000)); [lra|].
Qed.
Print Assumptions C39_abbox.
Theorem C39_abbox_least : ∀ inf lower upper t, proper (Box lower upper) →
  (∀ q, is_corner (Box lower upper) q → in_interior (Box (V3 (- inf) (- inf) (- inf)) (V3 inf inf inf)) (inverse_transform t q)) →
  spanned (λ q, ∃ l, in_box (Box lower upper) l ∧ q = inverse_transform t l) (shrunk (1 / 1000) (compute_abbox inf lower upper t)).
Proof.
  intros inf lower upper t Hp Hi. split; [intros q (l & Hl & ->); by apply abbox_in|]. rewrite shrunk_abbox. set (cs := inverse_transform t <$> abbox_corners lower upper). set (st := Box (V3 inf inf inf) (V3 (- inf) (- inf) (- inf))).
  assert (∀ q, q ∈ cs → in_interior (Box (V3 (- inf) (- inf) (- inf)) (V3 inf inf inf)) q ∧ ∃ l, in_box (Box lower upper) l ∧ q = inverse_transform t l) as K.
  { intros q Hq. apply elem_of_list_fmap in Hq as (l & -> & Hl). apply corners_elem in Hl. split; [by apply Hi|]. exists l. split; [by apply corner_in|done]. }
  destruct (span_fold (λ q, ∃ l, in_box (Box lower upper) l ∧ q = inverse_transform t l) cs st) as (A1 & A2 & A3 & A4 & A5 & A6); [intros q Hq; by apply K|].
  assert (inverse_transform t lower ∈ cs) as M. { apply elem_of_list_fmap. exists lower. split; [done|]. apply corners_elem. repeat split; by left. }
  pose proof (fold_in cs st _ M) as (Mx & My & Mz). destruct (K _ M) as [(Lx & Ly & Lz) _]. cbn [bmin bmax vx vy vz] in Lx, Ly, Lz.
  assert (∀ (x y : R) (Q : Prop), x = y ∨ Q → x ≠ y → Q) as D by (intros ? ? ? [?|?] ?; [congruence|done]).
  clearbody cs. split; [eapply D; [exact A1|]|split; [eapply D; [exact A2|]|split; [eapply D; [exact A3|]|split; [eapply D; [exact A4|]|split; [eapply D; [exact A5|]|eapply D; [exact A6|]]]]]]; cbn [st bmin bmax vx vy vz]; lra.
Qed.
Print Assumptions C39_abbox_least.
(** ** VPlacedVolume::Extent (source/PlacedVolume.cpp:139-178) *)
Theorem C39_placed_extent : ∀ lower upper t, flags_ok t → proper (Box lower upper) →
  spanned (λ q, ∃ l, in_box (Box lower upper) l ∧ q = inverse_transform t l) (placed_extent lower upper t).
Proof.
  intros lower upper t (_ & _ & Hr) Hp. unfold placed_extent. destruct (hasr t) eqn:Er.
  - cbv zeta. set (c := λ x y z, inverse_transform t (V3 x y z)). set (l := [_; _; _; _; _; _; _]). set (first := inverse_transform t (V3 (vx lower) (vy lower) (vz lower))).
    change (foldl extend_box (Box first first) l) with (foldl extend_box (Box first first) l).
    assert (∀ q, q ∈ first :: l → ∃ k, is_corner (Box lower upper) k ∧ q = inverse_transform t k) as K.
    { intros q Hq. unfold l, first in Hq. rewrite !elem_of_cons, elem_of_nil in Hq. repeat (destruct Hq as [-> | Hq]; [eexists; split; [|reflexivity]; unfold is_corner; cbn; auto|]). done. }
    assert (∀ k, is_corner (Box lower upper) k → inverse_transform t k ∈ first :: l) as K2.
    { intros [x y z] (X & Y & Z). cbn in X, Y, Z. unfold l, first. rewrite !elem_of_cons. destruct X as [-> | ->], Y as [-> | ->], Z as [-> | ->]; tauto. }
    assert (in_box (foldl extend_box (Box first first) l) first) as F.
    { pose proof (fold_mono l (Box first first)) as M. cbv zeta in M. cbn [bmin bmax] in M. unfold in_box. lra. }
    split.
    + intros q (k & Hk & ->). apply (image_in_box t lower upper); [|done]. intros q Hq. apply K2 in Hq. apply elem_of_cons in Hq as [-> | Hq]; [done|]. by apply fold_in.
    + set (P := λ q, ∃ l0, in_box (Box lower upper) l0 ∧ q = inverse_transform t l0).
      assert (∀ q, q ∈ first :: l → P q) as K3 by (intros q Hq; apply K in Hq as (k & Hk & ->); exists k; split; [by apply corner_in|done]).
      destruct (span_fold P l (Box first first)) as (A1 & A2 & A3 & A4 & A5 & A6); [intros q Hq; apply K3; by right|]. cbn [bmin bmax] in *.
      assert (P first) as Pf by (apply K3; left).
      assert (∀ (g : v3 → R) (r : R) , r = g first ∨ (∃ q, P q ∧ g q = r) → ∃ q, P q ∧ g q = r) as D by (intros g r [-> |?]; [by exists first|done]).
      split; [by apply D|]. split; [by apply D|]. split; [by apply D|]. split; [by apply D|]. split; by apply D.
  - destruct (Hr eq_refl) as (R0 & R1 & R2). injection R0 as E0 E1 E2. injection R1 as E3 E4 E5. injection R2 as E6 E7 E8.
    assert (∀ k, inverse_transform t k = V3 (t0 t + vx k) (t1 t + vy k) (t2 t + vz k)) as I by (intros k; apply v3_eq; cbn; rewrite ?E0, ?E1, ?E2, ?E3, ?E4, ?E5, ?E6, ?E7, ?E8; ring).
    assert (in_box (Box lower upper) lower ∧ in_box (Box lower upper) upper) as [L U] by (unfold proper, in_box in *; cbn in *; lra).
    split; [intros q (k & Hk & ->); rewrite !I; unfold in_box in *; cbn in *; lra|]. cbn [bmin bmax].
    split; [by exists (inverse_transform t lower); split; [exists lower|]|]. split; [by exists (inverse_transform t lower); split; [exists lower|]|]. split; [by exists (inverse_transform t lower); split; [exists lower|]|].
    split; [by exists (inverse_transform t upper); split; [exists upper|]|]. split; by exists (inverse_transform t upper); split; [exists upper|].
Qed.
Print Assumptions C39_placed_extent.
(** ** ABBoxManager::ComputeSplittedABBox (source/ABBoxManager.cpp:29-107) *)
(** For an extent centred at the origin the slices cover the volume. *)
Theorem C39_splitted : ∀ inf upper t n p, (1 ≤ n)%nat → in_box (Box (vneg upper) upper) p →
  ∃ i b, (i < n)%nat ∧ splitted_abbox inf (vneg upper) upper t n !! i = Some b ∧ in_interior b (inverse_transform t p).
Proof.
  intros inf upper t n p Hn Hp. unfold splitted_abbox. set (delta := vsub upper (vneg upper)). set (dim := split_axis delta). set (w := axis_of dim delta / INR n).
  assert (0 < INR n) as Nn by (apply lt_0_INR; lia). assert (∀ a, axis_of dim (vadd a a) = 2 * axis_of dim a) as A2 by (intros a; unfold axis_of; destruct dim as [|[|d]]; cbn; lra).
  assert (axis_of dim delta = 2 * axis_of dim upper) as Ed by (rewrite <- A2; unfold axis_of, delta; destruct dim as [|[|d]]; cbn; lra).
  assert (- axis_of dim upper <= axis_of dim p <= axis_of dim upper) as Hd. { destruct Hp as (Px & Py & Pz). unfold axis_of. cbn in Px, Py, Pz. destruct dim as [|[|d]]; lra. }
  assert (INR n * w = axis_of dim delta) as Ew by (unfold w; field; lra).
  assert (0 <= w) as Hw by (unfold w; apply Rmult_le_pos; [lra|left; by apply Rinv_0_lt_compat]).
  destruct (split_cover (n - 1) (- axis_of dim upper) w (axis_of dim p) Hw) as (i & Hi & Ki); [replace (S (n - 1)) with n by lia; lra|].
  exists i. eexists. split; [lia|]. split; [apply slices_lookup; lia|].
  set (val := _ + INR i * w). set (half := vscale (1 / 2) (on_axis dim w delta)). set (q := vsub p (on_axis dim val vzero)).
  replace (inverse_transform t p) with (inverse_transform (moved t (inverse_transform t (on_axis dim val vzero))) q).
  2: { rewrite moved_inverse. f_equal. apply v3_eq; cbn; ring. }
  apply C39_abbox. destruct Hp as (Px & Py & Pz). cbn in Px, Py, Pz.
  assert (- w / 2 <= axis_of dim p - val <= w / 2) as V by (unfold val; rewrite Ed; lra).
  unfold q, half, delta, axis_of, on_axis in *. unfold in_box. destruct dim as [|[|d]]; cbn in *; lra.
Qed.
Print Assumptions C39_splitted.
(** For other extents they do not: the slices are placed around the origin of the volume. *)
Theorem C39_splitted_refuted : ∃ inf lower upper n p, proper (Box lower upper) ∧ (1 ≤ n)%nat ∧ in_box (Box lower upper) p ∧
  ∀ i b, splitted_abbox inf lower upper tr_one n !! i = Some b → ¬ in_box b (inverse_transform tr_one p).
Proof.
  exists 1000, (V3 0 0 0), (V3 2 1 1), 1%nat, (V3 2 0 0). split; [unfold proper; cbn; lra|]. split; [lia|]. split; [unfold in_box; cbn; lra|].
  intros i b H. unfold splitted_abbox in H. assert (split_axis (vsub (V3 2 1 1) (V3 0 0 0)) = 0%nat) as E.
  { unfold split_axis, rgtb; cbn. destruct (rltb_spec (2 - 0) (1 - 0)); [lra|]. cbn. done. }
  rewrite E in H. cbn [slices] in H. destruct i as [|i]; [|done]. cbn [lookup list_lookup] in H. injection H as <-. intros (K & _). revert K.
  cbn [axis_of on_axis]. set (val := _ + _ / 2). set (half := vscale _ _). set (tt := moved _ _).
  assert (vx (bmax (compute_abbox 1000 (vneg half) half tt)) <= 1 + 1 / 1000) as B.
  { apply abbox_right; [lra|]. intros k (Kx & _). unfold half in Kx. cbn in Kx. unfold tt. rewrite moved_inverse. unfold val. cbn. lra. }
  intros K. cbn [inverse_transform vx tr_one] in K. unfold inverse_transform in K. cbn [vx vy vz tr_one t0 r0 r1 r2] in K. lra.
Qed.
Print Assumptions C39_splitted_refuted.
(** ** The boxes used by the searches among daughters: the hypothesis of C33 holds for them. *)
Theorem C39_search_boxes : ∀ inf (dau : list N) (ext : N → aabb) (tr : N → trans) (In : N → v3 → Prop) D p dir step0,
  (∀ v, v ∈ dau → ortho (tr v)) → (∀ v q, In v q → in_box (ext v) q) →
  (∀ v, v ∈ dau → D v < step0 → (0 <= D v → In v (transform (tr v) (along p dir (D v)))) ∧ (D v < 0 → D v = -1 ∧ In v (transform (tr v) p))) →
  boxes_hold ((λ v, compute_abbox inf (bmin (ext v)) (bmax (ext v)) (tr v)) <$> dau) dau D p dir step0.
Proof.
  intros inf dau ext tr In D p dir step0 Ho He HD. split; [by rewrite fmap_length|]. intros i b v Hb Hv Hs. rewrite list_lookup_fmap, Hv in Hb. cbn in Hb. injection Hb as <-.
  assert (v ∈ dau) as M by (by eapply elem_of_list_lookup_2).
  assert (∀ q, In v (transform (tr v) q) → in_interior (compute_abbox inf (bmin (ext v)) (bmax (ext v)) (tr v)) q) as K.
  { intros q Hq. rewrite <- (inverse_of_transform (tr v) q) by auto. apply C39_abbox. specialize (He v _ Hq). by destruct (ext v). }
  destruct (HD v M Hs) as [H1 H2]. split.
  - intros H. apply interior_in_box. auto.
  - intros H. destruct (H2 H) as [-> ?]. auto.
Qed.
Print Assumptions C39_search_boxes.
Example C39_example : let t := Tr 5 0 0 0 (-1) 0 1 0 0 0 0 1 false true true in
  in_interior (compute_abbox 1000 (V3 (-1) (-2) (-3)) (V3 1 2 3) t) (V3 7 1 3) ∧ ortho t ∧ flags_ok t.
Proof.
  cbv zeta. set (t := Tr _ _ _ _ _ _ _ _ _ _ _ _ _ _ _). split.
  - replace (V3 7 1 3) with (inverse_transform t (V3 1 (-2) 3)) by (apply v3_eq; cbn; ring). apply C39_abbox. unfold in_box; cbn; lra.
  - split; [unfold ortho, vdot; cbn; lra|]. unfold flags_ok. cbn. done.
Qed.

(** ** Assemblies (VecGeom/volumes/UnplacedAssembly.h:81-93, source/UnplacedAssembly.cpp:37-54, source/LogicalVolume.cpp:140-153) *)
(** Built from the bottom up, Contains of an assembly is true exactly for the points of its daughters. *)
Theorem C67_contains : ∀ inf shape fuel fuel' s0 s k p r, shapes_ok shape s0 → built inf fuel s0 s → contains shape fuel' s k p = Some r → (r = true ↔ in_vol shape s k p).
Proof. intros inf shape fuel fuel' s0 s k p r Hs B E. destruct (built_good inf shape fuel s0 s Hs B) as (G & _). by eapply contains_ok. Qed.
Print Assumptions C67_contains.
(** The extent of a volume contains its points, however it was built. *)
Theorem C67_extent : ∀ inf shape fuel s k p b, shapes_ok shape s → placements_ok s → in_vol shape s k p → extent inf fuel s k = Some b → in_box b p.
Proof. intros inf shape fuel s k p b Hs Ho I E. by eapply extent_ok. Qed.
Print Assumptions C67_extent.
(** Not so for Contains: a volume added to an assembly that is already placed in another one is not seen by the
    outer one, whose corners are not updated. *)
Theorem C67_order_refuted : ∃ inf shape s0 s1 s2 s3 p, shapes_ok shape s0 ∧ (∀ k v, s0 !! k = Some v → (∃ lo up, v = Plain lo up) ∨ v = new_assembly inf) ∧
  place_daughter inf 10 s0 1 tr_one 0 = Some s1 ∧ place_daughter inf 10 s1 2 tr_one 1 = Some s2 ∧ place_daughter inf 10 s2 1 (tr_translation 10 0 0) 0 = Some s3 ∧
  in_vol shape s3 2 p ∧ contains shape 10 s3 2 p = Some false.
Proof.
  set (lo := V3 (-1) (-1) (-1)). set (up := V3 1 1 1). set (shape := λ (k : nat) (q : v3), abbox_contains (Box lo up) q). set (na := new_assembly 1000).
  exists 1000, shape, [Plain lo up; na; na]. do 3 eexists. exists (V3 10 0 0). split; [|split; [|split; [reflexivity|split; [reflexivity|split; [reflexivity|split]]]]].
  - intros k l u q H S. apply contains_interior in S. apply interior_in_box in S. destruct k as [|[|[|k]]]; cbn in H; try done. by injection H as <- <-.
  - intros k v H. destruct k as [|[|[|k]]]; cbn in H; try done; injection H as <-; [left; by exists lo, up|by right|by right].
  - eapply In_assembly; [reflexivity|left|]. eapply In_assembly; [reflexivity|right; left|]. eapply In_plain; [reflexivity|]. unfold shape. apply contains_interior. unfold in_interior; cbn. lra.
  - set (big := Box (V3 1000 1000 1000) (V3 (- 1000) (- 1000) (- 1000))). set (b1 := compute_abbox 1000 lo up tr_one).
    assert (in_box b1 (inverse_transform tr_one vzero)) as (Z & _) by (apply interior_in_box, C39_abbox; unfold in_box; cbn; lra). cbn [inverse_transform] in Z.
    assert (vx (bmax b1) <= 1 + 1 / 1000) as R1. { apply abbox_right; [lra|]. intros q ([Q|Q] & _); cbn in Q |- *; lra. }
    match goal with |- contains _ _ ?st _ _ = _ => assert (∃ daus c, st !! 2%nat = Some (Assembly daus c) ∧ vx (bmax c) <= 2) as (daus & c & E & L) end.
    { exists [(tr_one, 1%nat)], (join_box big (compute_abbox 1000 (bmin (join_box big b1)) (bmax (join_box big b1)) tr_one)). split; [reflexivity|].
      clearbody b1. cbn in Z. apply Rmax_lub; [|cbn; lra]. eapply Rle_trans; [apply (abbox_right _ _ _ _ (1 + 1 / 1000)); [lra|]|lra].
      pose proof (Rmin_l (vx (bmin b1)) 1000). pose proof (Rmax_lub (vx (bmax b1)) (- 1000) (1 + 1 / 1000) R1 ltac:(lra)).
      intros q ([Q|Q] & _); cbn in Q |- *; lra. }
    cbn [contains]. rewrite E. cbn [mbind option_bind]. assert (abbox_contains c (V3 10 0 0) = false) as ->; [|done].
    apply not_true_is_false. rewrite contains_interior. intros ((_ & K) & _). cbn in K. lra.
Qed.
Print Assumptions C67_order_refuted.
Example C67_example : ∃ s0 s, built 1000 10 s0 s ∧ shapes_ok (λ _ q, abbox_contains (Box (V3 (-1) (-1) (-1)) (V3 1 1 1)) q) s0 ∧
  in_vol (λ _ q, abbox_contains (Box (V3 (-1) (-1) (-1)) (V3 1 1 1)) q) s 2 (V3 10 0 0).
Proof.
  set (lo := V3 (-1) (-1) (-1)). set (up := V3 1 1 1). set (na := new_assembly 1000). exists [Plain lo up; na; na]. eexists. split; [|split].
  - eapply Built_step with (k := 2%nat) (j := 1%nat) (t := tr_one); [eapply Built_step with (k := 1%nat) (j := 0%nat) (t := tr_translation 10 0 0)|..].
    + apply Built_start. intros k v H. destruct k as [|[|[|k]]]; cbn in H; try done; injection H as <-; [left; by exists lo, up|by right|by right].
    + apply translation_ok.
    + intros (k & daus & c & t & H & M). destruct k as [|[|[|k]]]; cbn in H; try done; injection H as <- <-; by apply elem_of_nil in M.
    + done.
    + reflexivity.
    + apply one_ok.
    + intros (k & daus & c & t & H & M). destruct k as [|[|[|k]]]; cbn in H; try done; injection H as <- <-; [|by apply elem_of_nil in M]. apply elem_of_list_singleton in M. done.
    + done.
    + reflexivity.
  - intros k l u q H S. apply contains_interior in S. apply interior_in_box in S. destruct k as [|[|[|k]]]; cbn in H; try done. by injection H as <- <-.
  - eapply In_assembly; [reflexivity|left|]. eapply In_assembly; [reflexivity|left|]. eapply In_plain; [reflexivity|]. apply contains_interior. unfold in_interior; cbn. lra.
Qed.
