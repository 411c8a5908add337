(** Lemmas about boxes. *)
From Coq Require Import Reals Lra Bool.
From Verif Require Import Real3 AABBModel AABBSpec.
Local Open Scope R_scope.

Lemma kTiny_pos : 0 < kTiny.
Proof. unfold kTiny. apply Rinv_0_lt_compat, pow_lt. lra. Qed.
Lemma kEpsilon_pos : 0 < kEpsilon.
Proof. unfold kEpsilon. apply Rinv_0_lt_compat, pow_lt. lra. Qed.
Lemma nonzero_nz x : nonzero x <> 0.
Proof. unfold nonzero. pose proof kTiny_pos. destruct (rltb_spec x 0); lra. Qed.
Lemma nonzero_near x : Rabs (nonzero x - x) <= kTiny.
Proof. unfold nonzero. pose proof kTiny_pos. apply Rabs_le. destruct (rltb_spec x 0); lra. Qed.
Lemma vnonzero_nz d : no_zero (vnonzero d).
Proof. split; [|split]; apply nonzero_nz. Qed.

Lemma vmax_le a k : vmax a <= k <-> vx a <= k /\ vy a <= k /\ vz a <= k.
Proof. unfold vmax, Rmax. repeat destruct (Rle_dec _ _); split; intros; lra. Qed.
Lemma vmin_ge a k : k <= vmin a <-> k <= vx a /\ k <= vy a /\ k <= vz a.
Proof. unfold vmin, Rmin. repeat destruct (Rle_dec _ _); split; intros; lra. Qed.
Lemma vmax_lt a k : vmax a < k <-> vx a < k /\ vy a < k /\ vz a < k.
Proof. unfold vmax, Rmax. repeat destruct (Rle_dec _ _); split; intros; lra. Qed.
Lemma vmax_cases a : vmax a = vx a \/ vmax a = vy a \/ vmax a = vz a.
Proof. unfold vmax, Rmax. repeat destruct (Rle_dec _ _); auto. Qed.

Lemma bcontains_spec b p : bcontains b p = true <-> in_box b p.
Proof. unfold bcontains, in_box. rcase; cbn; split; intros; try discriminate; try lra; auto. Qed.

Lemma in_box_proper b p : in_box b p -> proper b.
Proof. unfold in_box, proper. lra. Qed.
Lemma box_le_corners a b : proper a -> (box_le a b <->
  vx (bmin b) <= vx (bmin a) /\ vx (bmax a) <= vx (bmax b) /\ vy (bmin b) <= vy (bmin a) /\ vy (bmax a) <= vy (bmax b) /\
  vz (bmin b) <= vz (bmin a) /\ vz (bmax a) <= vz (bmax b)).
Proof.
  intros P. split.
  - intros H. assert (in_box b (bmin a)) as H1 by (apply H; unfold proper, in_box in *; lra).
    assert (in_box b (bmax a)) as H2 by (apply H; unfold proper, in_box in *; lra). unfold in_box in *. lra.
  - intros H p. unfold in_box. lra.
Qed.
Lemma union_l a b p : in_box a p -> in_box (bunion a b) p.
Proof. unfold in_box, bunion; cbn. unfold Rmin, Rmax. repeat destruct (Rle_dec _ _); lra. Qed.
Lemma union_r a b p : in_box b p -> in_box (bunion a b) p.
Proof. unfold in_box, bunion; cbn. unfold Rmin, Rmax. repeat destruct (Rle_dec _ _); lra. Qed.
(** The smallest such box. *)
Lemma union_least a b c : proper a -> proper b -> box_le a c -> box_le b c -> box_le (bunion a b) c.
Proof.
  intros Pa Pb. rewrite (box_le_corners a c Pa), (box_le_corners b c Pb). intros Ha Hb p. unfold in_box, bunion; cbn.
  unfold Rmin, Rmax. repeat destruct (Rle_dec _ _); lra.
Qed.
Lemma expand_spec b s : bsize (bexpand b s) = vadd (bsize b) (V3 s s s) /\ bcenter (bexpand b s) = bcenter b.
Proof. split; apply v3_eq; cbn; lra. Qed.
Lemma expand_in b s p q : 0 <= s -> in_box b p -> vdist p q <= s * (1 / 2) -> in_box (bexpand b s) q.
Proof.
  intros Hs Hp Hd. assert (forall a c, Rabs (a - c) <= s * (1/2) -> c - s * (1/2) <= a <= c + s * (1/2)) as K
    by (intros a c; intros H; apply abs_le_inv in H; lra).
  pose proof (vx_le_mag (vsub p q)) as Hx. pose proof (vy_le_mag (vsub p q)) as Hy. pose proof (vz_le_mag (vsub p q)) as Hz. unfold vdist in Hd. cbn in Hx, Hy, Hz.
  assert (Rabs (vx p - vx q) <= s * (1/2)) as Ax by lra. assert (Rabs (vy p - vy q) <= s * (1/2)) as Ay by lra. assert (Rabs (vz p - vz q) <= s * (1/2)) as Az by lra.
  apply K in Ax, Ay, Az. unfold in_box in *; cbn. lra.
Qed.

(** Slab form of the safety. *)
Lemma slab_safety lo hi c : Rabs (c - 1 / 2 * (hi + lo)) - 1 / 2 * (hi - lo) = Rmax (lo - c) (c - hi).
Proof. unfold Rabs, Rmax. destruct (Rcase_abs _), (Rle_dec _ _); lra. Qed.
Lemma bsafety_slabs b p : bsafety b p =
  vmax (V3 (Rmax (vx (bmin b) - vx p) (vx p - vx (bmax b))) (Rmax (vy (bmin b) - vy p) (vy p - vy (bmax b)))
           (Rmax (vz (bmin b) - vz p) (vz p - vz (bmax b)))).
Proof. unfold bsafety. f_equal. apply v3_eq; cbn; apply slab_safety. Qed.
Lemma bsafety_le b p k : bsafety b p <= k <-> in_box (grown (V3 k k k) b) p.
Proof.
  rewrite bsafety_slabs, vmax_le. cbn. unfold in_box, grown; cbn. unfold Rmax. repeat destruct (Rle_dec _ _); split; intros; lra.
Qed.
Lemma bsafety_dist b p q : in_box b q -> bsafety b p <= vdist p q.
Proof.
  intros H. apply bsafety_le. pose proof (vx_le_mag (vsub p q)) as Hx. pose proof (vy_le_mag (vsub p q)) as Hy. pose proof (vz_le_mag (vsub p q)) as Hz.
  fold (vdist p q) in Hx, Hy, Hz. cbn in Hx, Hy, Hz. apply abs_le_inv in Hx, Hy, Hz. unfold in_box, grown in *; cbn in *. lra.
Qed.
Lemma bsafety_inside b p : bsafety b p <= 0 <-> in_box b p.
Proof. rewrite bsafety_le. unfold in_box, grown; cbn. split; intros; lra. Qed.
Lemma bsafety_ball b p q : vdist p q <= - bsafety b p -> in_box b q.
Proof.
  intros H. pose proof (vx_le_mag (vsub p q)) as Hx. pose proof (vy_le_mag (vsub p q)) as Hy. pose proof (vz_le_mag (vsub p q)) as Hz.
  fold (vdist p q) in Hx, Hy, Hz. cbn in Hx, Hy, Hz. apply abs_le_inv in Hx, Hy, Hz.
  pose proof (proj1 (bsafety_le b p (bsafety b p)) (Rle_refl _)) as Hb. unfold in_box, grown in *; cbn in *. lra.
Qed.
Lemma bsafety_mono a b p : proper a -> box_le a b -> bsafety b p <= bsafety a p.
Proof.
  intros P H. rewrite box_le_corners in H by exact P. apply bsafety_le.
  pose proof (proj1 (bsafety_le a p (bsafety a p)) (Rle_refl _)) as Ha. unfold in_box, grown in *; cbn in *. lra.
Qed.

(** One slab. *)
Section Slab.
Variables lo hi p d : R.
Hypothesis Hd : d <> 0.
Let t0 := (lo - p) * (1 / d).
Let t1 := (hi - p) * (1 / d).
Lemma slab t : lo <= hi -> (lo <= p + t * d <= hi <-> (if rgtb t0 t1 then t1 else t0) <= t <= (if rgtb t0 t1 then t0 else t1)).
Proof.
  intros H. assert (t0 * d = lo - p) as E0 by (unfold t0; field; exact Hd). assert (t1 * d = hi - p) as E1 by (unfold t1; field; exact Hd).
  destruct (Rle_or_lt 0 d) as [D|D]; [assert (0 < d) as D' by lra|].
  - assert (t0 <= t1) as Ho by (apply (Rmult_le_reg_r d); lra). destruct (rgtb_spec t0 t1); [lra|].
    split; intros [A B]; split; try (apply (Rmult_le_reg_r d); lra);
      [pose proof (Rmult_le_compat_r d _ _ D A)|pose proof (Rmult_le_compat_r d _ _ D B)]; lra.
  - assert (t1 <= t0) as Ho by (apply (Rmult_le_reg_r (- d)); lra).
    assert ((if rgtb t0 t1 then t1 else t0) = t1) as -> by (destruct (rgtb_spec t0 t1); lra).
    assert ((if rgtb t0 t1 then t0 else t1) = t0) as -> by (destruct (rgtb_spec t0 t1); lra).
    split; intros [A B]; split; try (apply (Rmult_le_reg_r (- d)); lra).
    + assert (t * (- d) <= t0 * (- d)) by (apply Rmult_le_compat_r; lra). lra.
    + assert (t1 * (- d) <= t * (- d)) by (apply Rmult_le_compat_r; lra). lra.
Qed.
End Slab.

(** The exact parameter interval; [bintersection] only stretches its upper end. *)
Definition entry_exit (b : aabb) (p invdir : v3) : R * R :=
  let t0 := vmul (vsub (bmin b) p) invdir in
  let t1 := vmul (vsub (bmax b) p) invdir in
  let lo a c := if rgtb a c then c else a in
  let hi a c := if rgtb a c then a else c in
  (vmax (V3 (lo (vx t0) (vx t1)) (lo (vy t0) (vy t1)) (lo (vz t0) (vz t1))),
   vmin (V3 (hi (vx t0) (vx t1)) (hi (vy t0) (vy t1)) (hi (vz t0) (vz t1)))).
Lemma bintersection_eq b p i : bintersection b p i = (fst (entry_exit b p i), snd (entry_exit b p i) * (1 + 2 * kEpsilon)).
Proof. reflexivity. Qed.
Lemma interval b p d t : no_zero d -> proper b ->
  (in_box b (along p d t) <-> fst (entry_exit b p (vinv d)) <= t <= snd (entry_exit b p (vinv d))).
Proof.
  intros (Dx & Dy & Dz) (Px & Py & Pz). unfold entry_exit. cbn [fst snd]. rewrite vmax_le, vmin_ge. cbn [vx vy vz vmul vsub vinv].
  pose proof (slab _ _ (vx p) _ Dx t Px) as Sx. pose proof (slab _ _ (vy p) _ Dy t Py) as Sy. pose proof (slab _ _ (vz p) _ Dz t Pz) as Sz.
  unfold in_box, along, vadd, vscale. cbn [vx vy vz]. rewrite Sx, Sy, Sz. tauto.
Qed.
Lemma entry_lower b p d t : no_zero d -> in_box b (along p d t) -> fst (bintersection b p (vinv d)) <= t.
Proof. intros Hd H. rewrite bintersection_eq. cbn [fst]. apply (interval b p d t) in H; auto; [tauto|eapply in_box_proper; eauto]. Qed.
Lemma exit_upper b p d t : no_zero d -> in_box b (along p d t) -> 0 <= t -> t <= snd (bintersection b p (vinv d)).
Proof.
  intros Hd H Ht. rewrite bintersection_eq. cbn [snd]. apply (interval b p d t) in H; auto; [|eapply in_box_proper; eauto].
  pose proof kEpsilon_pos. set (e := snd _) in *. assert (0 <= e * (2 * kEpsilon)) by (apply Rmult_le_pos; lra). lra.
Qed.
Lemma hit_complete b p d t step : no_zero d -> in_box b (along p d t) -> 0 <= t < step -> bhit_inv b p (vinv d) step = true.
Proof.
  intros Hd H Ht. pose proof (entry_lower b p d t Hd H). pose proof (exit_upper b p d t Hd H (proj1 Ht)).
  unfold bhit_inv. destruct (bintersection b p (vinv d)) as [tmin tmax]. cbn in *. rcase; cbn; auto; lra.
Qed.
Lemma line_complete b p d t : no_zero d -> in_box b (along p d t) -> 0 <= t -> bline_inv b p (vinv d) = true.
Proof.
  intros Hd H Ht. pose proof (entry_lower b p d t Hd H). pose proof (exit_upper b p d t Hd H Ht).
  unfold bline_inv. destruct (bintersection b p (vinv d)) as [tmin tmax]. cbn in *. rcase; cbn; auto; lra.
Qed.
(** A reported hit is real up to the stretching of the exit distance by two epsilon. *)
Lemma hit_sound b p d step : no_zero d -> proper b -> bhit_inv b p (vinv d) step = true ->
  exists t, 0 <= t /\ (t < step \/ t = 0) /\
    in_box (grown (vscale (2 * kEpsilon * t) (vabs d)) b) (along p d t) /\ fst (bintersection b p (vinv d)) <= t.
Proof.
  intros Hd P H. unfold bhit_inv in H. rewrite bintersection_eq in *. cbn [fst].
  remember (fst (entry_exit b p (vinv d))) as e0. remember (snd (entry_exit b p (vinv d))) as e1.
  assert (e0 <= e1 * (1 + 2 * kEpsilon) /\ 0 <= e1 * (1 + 2 * kEpsilon) /\ e0 < step) as (H1 & H2 & H3).
  { destruct (rleb_spec e0 (e1 * (1 + 2 * kEpsilon))); [|discriminate]. destruct (rgeb_spec (e1 * (1 + 2 * kEpsilon)) 0); [|discriminate].
    destruct (rltb_spec e0 step); [|discriminate]. lra. }
  pose proof kEpsilon_pos as He. assert (0 <= e1) as He1 by (apply (Rmult_le_reg_r (1 + 2 * kEpsilon)); [lra|rewrite Rmult_0_l; lra]).
  exists (Rmax e0 0). set (t := Rmax e0 0). assert (0 <= t /\ e0 <= t /\ (t = e0 \/ t = 0)) as (T0 & T1 & T2) by (unfold t, Rmax; destruct (Rle_dec e0 0); lra).
  assert (t <= e1 * (1 + 2 * kEpsilon)) as T3 by (unfold t, Rmax; destruct (Rle_dec e0 0); lra).
  split; [exact T0|]. split; [destruct T2 as [T2|T2]; [left; lra|right; exact T2]|]. split; [|exact T1].
  destruct Hd as (Dx & Dy & Dz). destruct P as (Px & Py & Pz).
  assert (forall lo hi q c, c <> 0 -> lo <= hi ->
    (if rgtb ((lo - q) * (1 / c)) ((hi - q) * (1 / c)) then (hi - q) * (1 / c) else (lo - q) * (1 / c)) <= e0 ->
    e1 <= (if rgtb ((lo - q) * (1 / c)) ((hi - q) * (1 / c)) then (lo - q) * (1 / c) else (hi - q) * (1 / c)) ->
    lo - 2 * kEpsilon * t * Rabs c <= q + t * c <= hi + 2 * kEpsilon * t * Rabs c) as K.
  { intros lo hi q c Hc Hl A B.
    set (l := if rgtb ((lo - q) * (1 / c)) ((hi - q) * (1 / c)) then (hi - q) * (1 / c) else (lo - q) * (1 / c)) in *.
    set (h := if rgtb ((lo - q) * (1 / c)) ((hi - q) * (1 / c)) then (lo - q) * (1 / c) else (hi - q) * (1 / c)) in *.
    assert (l <= h) as Hlh by (unfold l, h; destruct (rgtb_spec ((lo - q) * (1 / c)) ((hi - q) * (1 / c))); lra).
    destruct (Rle_or_lt t h) as [Hte|Hte].
    - assert (lo <= q + t * c <= hi) as Q by (apply slab; auto; fold l; fold h; lra). pose proof (Rabs_pos c).
      assert (0 <= 2 * kEpsilon * t * Rabs c) by (repeat apply Rmult_le_pos; lra). lra.
    - assert (lo <= q + h * c <= hi) as Q by (apply slab; auto; fold l; fold h; lra).
      assert (Rabs (t * c - h * c) <= 2 * kEpsilon * t * Rabs c) as Z.
      { replace (t * c - h * c) with ((t - h) * c) by ring. rewrite Rabs_mult. apply Rmult_le_compat_r; [apply Rabs_pos|].
        rewrite Rabs_pos_eq by lra. assert (e1 * kEpsilon <= h * kEpsilon) by (apply Rmult_le_compat_r; lra).
        assert (h * kEpsilon <= t * kEpsilon) by (apply Rmult_le_compat_r; lra). lra. }
      apply abs_le_inv in Z. lra. }
  pose proof (Rle_refl e0) as R0. pose proof (Rle_refl e1) as R1. rewrite Heqe0 in R0 at 1. rewrite Heqe1 in R1 at 2.
  unfold entry_exit in R0, R1. cbn [fst snd] in R0, R1. rewrite vmax_le in R0. rewrite vmin_ge in R1. cbn [vx vy vz vmul vsub vinv] in R0, R1.
  destruct R0 as (Ax & Ay & Az), R1 as (Bx & By & Bz).
  pose proof (K _ _ _ _ Dx Px Ax Bx). pose proof (K _ _ _ _ Dy Py Ay By). pose proof (K _ _ _ _ Dz Pz Az Bz).
  unfold in_box, grown, along, vadd, vsub, vscale, vabs. cbn [vx vy vz bmin bmax]. auto.
Qed.
(** Growing a box grows its parameter interval. *)
Lemma box_le_interval a b p d : no_zero d -> proper a -> box_le a b ->
  fst (entry_exit b p (vinv d)) <= fst (entry_exit a p (vinv d)) /\ snd (entry_exit a p (vinv d)) <= snd (entry_exit b p (vinv d)).
Proof.
  intros (Dx & Dy & Dz) P H. rewrite box_le_corners in H by exact P. destruct P as (Px & Py & Pz).
  assert (forall lo hi lo' hi' q c, c <> 0 -> lo <= hi -> lo' <= lo -> hi <= hi' ->
    (if rgtb ((lo' - q) * (1 / c)) ((hi' - q) * (1 / c)) then (hi' - q) * (1 / c) else (lo' - q) * (1 / c)) <=
    (if rgtb ((lo - q) * (1 / c)) ((hi - q) * (1 / c)) then (hi - q) * (1 / c) else (lo - q) * (1 / c)) /\
    (if rgtb ((lo - q) * (1 / c)) ((hi - q) * (1 / c)) then (lo - q) * (1 / c) else (hi - q) * (1 / c)) <=
    (if rgtb ((lo' - q) * (1 / c)) ((hi' - q) * (1 / c)) then (lo' - q) * (1 / c) else (hi' - q) * (1 / c))) as K.
  { intros lo hi lo' hi' q c Hc H1 H2 H3.
    assert (lo' <= hi') as H4 by lra. pose proof (fun t => slab lo hi q c Hc t H1) as S. pose proof (fun t => slab lo' hi' q c Hc t H4) as S'.
    assert ((if rgtb ((lo - q) * (1 / c)) ((hi - q) * (1 / c)) then (hi - q) * (1 / c) else (lo - q) * (1 / c)) <=
      (if rgtb ((lo - q) * (1 / c)) ((hi - q) * (1 / c)) then (lo - q) * (1 / c) else (hi - q) * (1 / c)))
      as Ho by (destruct (rgtb_spec ((lo - q) * (1 / c)) ((hi - q) * (1 / c))); lra).
    set (l := if rgtb ((lo - q) * (1 / c)) ((hi - q) * (1 / c)) then (hi - q) * (1 / c) else (lo - q) * (1 / c)) in *.
    set (h := if rgtb ((lo - q) * (1 / c)) ((hi - q) * (1 / c)) then (lo - q) * (1 / c) else (hi - q) * (1 / c)) in *.
    split.
    - apply (S' l). assert (lo <= q + l * c <= hi) by (apply S; lra). lra.
    - apply (S' h). assert (lo <= q + h * c <= hi) by (apply S; lra). lra. }
  unfold entry_exit. cbn [fst snd]. rewrite vmax_le, vmin_ge. cbn [vx vy vz vmul vsub vinv].
  destruct (K (vx (bmin a)) (vx (bmax a)) (vx (bmin b)) (vx (bmax b)) (vx p) (vx d)) as [Kx Kx']; try lra.
  destruct (K (vy (bmin a)) (vy (bmax a)) (vy (bmin b)) (vy (bmax b)) (vy p) (vy d)) as [Ky Ky']; try lra.
  destruct (K (vz (bmin a)) (vz (bmax a)) (vz (bmin b)) (vz (bmax b)) (vz p) (vz d)) as [Kz Kz']; try lra.
  split.
  - match goal with |- _ /\ _ /\ _ => idtac end.
    match goal with |- context [vmax ?v] => pose proof (proj1 (vmax_le v _) (Rle_refl _)) as M end. cbn [vx vy vz] in M. lra.
  - match goal with |- context [vmin ?v] => pose proof (proj1 (vmin_ge v _) (Rle_refl _)) as M end. cbn [vx vy vz] in M. lra.
Qed.
Lemma hit_mono a b p d step : no_zero d -> proper a -> box_le a b -> bhit_inv a p (vinv d) step = true -> bhit_inv b p (vinv d) step = true.
Proof.
  intros Hd P H. destruct (box_le_interval a b p d Hd P H) as [H1 H2]. unfold bhit_inv. rewrite !bintersection_eq.
  set (a0 := fst (entry_exit a p (vinv d))) in *. set (a1 := snd (entry_exit a p (vinv d))) in *.
  set (b0 := fst (entry_exit b p (vinv d))) in *. set (b1 := snd (entry_exit b p (vinv d))) in *.
  pose proof kEpsilon_pos. assert (a1 * (1 + 2 * kEpsilon) <= b1 * (1 + 2 * kEpsilon)) by (apply Rmult_le_compat_r; lra).
  rcase; cbn; auto; try discriminate; lra.
Qed.
Lemma hit_inside b p d step : no_zero d -> in_interior b p -> 0 <= step -> bhit_inv b p (vinv d) step = true.
Proof.
  intros (Dx & Dy & Dz) H Hs. assert (in_box b (along p d 0)) as Hb by (unfold in_box, in_interior in *; cbn; lra).
  assert (no_zero d) as Hd by (repeat split; auto).
  pose proof (entry_lower b p d 0 Hd Hb) as H0. pose proof (exit_upper b p d 0 Hd Hb (Rle_refl 0)) as H1.
  unfold bhit_inv. rewrite bintersection_eq in *. cbn [fst snd] in *.
  assert (fst (entry_exit b p (vinv d)) < 0) as Hneg.
  { unfold entry_exit. cbn [fst]. apply vmax_lt. cbn [vx vy vz vmul vsub vinv].
    assert (forall lo hi q c, c <> 0 -> lo < q < hi -> (if rgtb ((lo - q) * (1 / c)) ((hi - q) * (1 / c)) then (hi - q) * (1 / c) else (lo - q) * (1 / c)) < 0) as K.
    { intros lo hi q c Hc Hq. assert (c < 0 \/ 0 < c) as [C|C] by lra.
      - assert (1 / c < 0) by (unfold Rdiv; rewrite Rmult_1_l; apply Rinv_lt_0_compat; auto).
        assert ((hi - q) * (1 / c) < 0) by (apply Ropp_lt_cancel; rewrite Ropp_0; replace (- ((hi - q) * (1 / c))) with ((hi - q) * (- (1 / c))) by ring; apply Rmult_lt_0_compat; lra).
        assert (0 < (lo - q) * (1 / c)) by (replace ((lo - q) * (1 / c)) with ((q - lo) * (- (1 / c))) by ring; apply Rmult_lt_0_compat; lra).
        destruct (rgtb_spec ((lo - q) * (1 / c)) ((hi - q) * (1 / c))); lra.
      - assert (0 < 1 / c) by (unfold Rdiv; rewrite Rmult_1_l; apply Rinv_0_lt_compat; auto).
        assert ((lo - q) * (1 / c) < 0) by (apply Ropp_lt_cancel; rewrite Ropp_0; replace (- ((lo - q) * (1 / c))) with ((q - lo) * (1 / c)) by ring; apply Rmult_lt_0_compat; lra).
        assert (0 < (hi - q) * (1 / c)) by (apply Rmult_lt_0_compat; lra).
        destruct (rgtb_spec ((lo - q) * (1 / c)) ((hi - q) * (1 / c))); lra. }
    unfold in_interior in H. repeat split; apply K; auto; lra. }
  rcase; cbn; auto; lra.
Qed.
(** With the exact direction, clearance 1e-30 per unit length suffices. *)
Lemma nonzero_clear b p d t : 0 <= t -> in_box (grown (V3 (- (t * kTiny)) (- (t * kTiny)) (- (t * kTiny))) b) (along p d t) ->
  in_box b (along p (vnonzero d) t).
Proof.
  intros Ht H. assert (forall x, Rabs (t * nonzero x - t * x) <= t * kTiny) as K.
  { intros x. replace (t * nonzero x - t * x) with (t * (nonzero x - x)) by ring. rewrite Rabs_mult, (Rabs_pos_eq t Ht).
    apply Rmult_le_compat_l; [exact Ht|apply nonzero_near]. }
  pose proof (K (vx d)) as Kx. pose proof (K (vy d)) as Ky. pose proof (K (vz d)) as Kz. apply abs_le_inv in Kx, Ky, Kz.
  unfold in_box, grown, along, vadd, vsub, vscale, vnonzero in *; cbn [vx vy vz bmin bmax] in *. lra.
Qed.
(** DistanceInvDir. *)
Lemma distance_lower inf b p d t : no_zero d -> in_box b (along p d t) -> 0 < t -> bdistance_inv inf b p (vinv d) <= t.
Proof.
  intros Hd H Ht. pose proof (entry_lower b p d t Hd H) as H0.
  assert (t < snd (bintersection b p (vinv d))) as H2.
  { rewrite bintersection_eq in *. cbn [fst snd] in *. apply (interval b p d t) in H; auto; [|eapply in_box_proper; eauto].
    pose proof kEpsilon_pos. set (e := snd _) in *. assert (0 < e * (2 * kEpsilon)) by (apply Rmult_lt_0_compat; lra). lra. }
  unfold bdistance_inv. destruct (bintersection b p (vinv d)) as [tmin tmax]. cbn [fst snd] in *. rcase; cbn; auto; lra.
Qed.
