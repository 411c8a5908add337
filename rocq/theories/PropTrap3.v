(** C82, third part: capacity, surface area, sampling, setters and angles of trapezoids. *)
From Coq Require Import Reals Lra Lia Bool Psatz.
From stdpp Require Import base list option numbers tactics.
From Verif Require Import Real3 BoxModel AABBModel PlanesModel PlanesSpec PlanesProofs TrapModel TrapSpec TrapProofs TrapProofs2 PropTrap PropTrap2.
Import stdpp.list.
Local Open Scope R_scope.

Lemma cubic_derive a b c z : derivable_pt_lim (λ z, a * z + b * z ^ 2 + c * z ^ 3) z (a + b * (2 * z) + c * (3 * z ^ 2)).
Proof.
  assert (H1 : derivable_pt_lim (λ z, a * z) z a).
  { pose proof (derivable_pt_lim_scal (λ z, z) a z 1 (derivable_pt_lim_id z)) as H. rewrite Rmult_1_r in H. exact H. }
  assert (Hp : ∀ n k, derivable_pt_lim (λ z, k * z ^ n) z (k * (INR n * z ^ pred n))).
  { intros n k. exact (derivable_pt_lim_scal (λ z, z ^ n) k z _ (derivable_pt_lim_pow z n)). }
  pose proof (Hp 2%nat b) as H2. pose proof (Hp 3%nat c) as H3. cbn [INR pred] in H2, H3.
  replace (b * ((1 + 1) * z ^ 1)) with (b * (2 * z)) in H2 by ring. replace (c * ((1 + 1 + 1) * z ^ 2)) with (c * (3 * z ^ 2)) in H3 by ring.
  exact (derivable_pt_lim_plus (λ z, a * z + b * z ^ 2) (λ z, c * z ^ 3) _ _ _ (derivable_pt_lim_plus (λ z, a * z) (λ z, b * z ^ 2) _ _ _ H1 H2) H3).
Qed.
(** Capacity: the integral of the areas of the sections; every trapezoid, proper or not. *)
Theorem C82_capacity t : tz_dz t ≠ 0 →
  let A := section_area (tz_dz t) (tz_dy1 t) (tz_dx1 t) (tz_dx2 t) (tz_dy2 t) (tz_dx3 t) (tz_dx4 t) in
  ∃ F, (∀ z, derivable_pt_lim F z (A z)) ∧ F (tz_dz t) - F (- tz_dz t) = capacity t.
Proof.
  intros Hz A. destruct t as [dz th ph dy1 dx1 dx2 ta1 dy2 dx3 dx4 ta2 tc ts pls ars]. cbn [tz_dz tz_dy1 tz_dx1 tz_dx2 tz_dy2 tz_dx3 tz_dx4] in *.
  set (y0 := (dy1 + dy2) / 2). set (y1 := (dy2 - dy1) / (2 * dz)). set (x0 := (dx1 + dx2 + dx3 + dx4) / 2). set (x1 := (dx3 + dx4 - dx1 - dx2) / (2 * dz)).
  exists (λ z, 2 * y0 * x0 * z + (y0 * x1 + y1 * x0) * z ^ 2 + (2 * y1 * x1 / 3) * z ^ 3). split.
  - intros z. replace (A z) with (2 * y0 * x0 + (y0 * x1 + y1 * x0) * (2 * z) + 2 * y1 * x1 / 3 * (3 * z ^ 2)); [apply cubic_derive|].
    unfold A, section_area, y0, x0, y1, x1. field. done.
  - unfold capacity, y0, x0, y1, x1. cbn [tz_dz tz_dy1 tz_dx1 tz_dx2 tz_dy2 tz_dx3 tz_dx4]. field. done.
Qed.
(** That is the area of the section of a proper solid: |y| and |x| within bounds that give it. *)
Theorem C82_section dz tc ts dy1 dx1 dx2 ta1 dy2 dx3 dx4 ta2 : proper dz tc ts dy1 dx1 dx2 ta1 dy2 dx3 dx4 ta2 → ∀ z, Rabs z <= dz →
  ∃ Y X k, 0 < Y ∧ section_area dz dy1 dx1 dx2 dy2 dx3 dx4 z = 2 * Y * (2 * X) ∧
  ∀ x y, hull (eight dz tc ts dy1 dx1 dx2 ta1 dy2 dx3 dx4 ta2) (V3 x y z) ↔
    let y' := y - ts * z in let x' := x - tc * z - ta1 * y' in Rabs y' <= Y ∧ Rabs x' <= X + k * y'.
Proof.
  intros P z Hz. pose proof P as (Hd & _). exists ((dy1 + dy2) / 2 + (dy2 - dy1) / (2 * dz) * z), ((dx1 + dx2 + dx3 + dx4) / 4 + (dx3 + dx4 - dx1 - dx2) / (4 * dz) * z), ((dx2 - dx1) / (2 * dy1)).
  split; [by apply (Dy_pos _ _ _ _ _ _ _ _ _ _ _ P)|]. split; [unfold section_area; field; lra|]. intros x y.
  transitivity (sect dz tc ts dy1 dx1 dx2 ta1 dy2 dx3 dx4 (V3 x y z)); [split; [by apply hull_sect|by apply sect_hull]|].
  unfold sect. cbn [vx vy vz]. tauto.
Qed.
Print Assumptions C82_capacity.
Print Assumptions C82_section.
(** Surface area: the six faces, those at -x and +x cut along the diagonals 0-6 and 3-5. *)
Lemma vmag_par v w s : 0 <= s → w = vscale s v → vmag w = s * vmag v.
Proof.
  intros H ->. unfold vmag, vdot. cbn [vx vy vz vscale]. replace (s * vx v * (s * vx v) + s * vy v * (s * vy v) + s * vz v * (s * vz v)) with
    ((s * s) * (vx v * vx v + vy v * vy v + vz v * vz v)) by ring. rewrite sqrt_mult_alt by nra. by rewrite sqrt_square.
Qed.
Lemma vmag_same v w : vdot v v = vdot w w → vmag v = vmag w.
Proof. unfold vmag. by intros ->. Qed.
Theorem C82_area t : 0 <= tz_dz t → 0 <= tz_dy1 t → 0 <= tz_dy2 t → 0 <= tz_dx1 t → 0 <= tz_dx2 t → 0 <= tz_dx3 t → 0 <= tz_dx4 t →
  let c := corners_of (eight (tz_dz t) (tz_tc t) (tz_ts t) (tz_dy1 t) (tz_dx1 t) (tz_dx2 t) (tz_ta1 t) (tz_dy2 t) (tz_dx3 t) (tz_dx4 t) (tz_ta2 t)) in
  surface_area t = quad_area (c0 c) (c1 c) (c5 c) (c4 c) + quad_area (c2 c) (c3 c) (c7 c) (c6 c) + quad_area (c0 c) (c2 c) (c6 c) (c4 c) +
    quad_area (c3 c) (c7 c) (c5 c) (c1 c) + quad_area (c0 c) (c1 c) (c3 c) (c2 c) + quad_area (c4 c) (c5 c) (c7 c) (c6 c).
Proof.
  intros Hz Hy1 Hy2 H1 H2 H3 H4 c.
  destruct t as [dz th ph dy1 dx1 dx2 ta1 dy2 dx3 dx4 ta2 tc ts pls ars]. cbn [tz_dz tz_dy1 tz_dx1 tz_dx2 tz_ta1 tz_dy2 tz_dx3 tz_dx4 tz_ta2 tz_tc tz_ts] in *.
  unfold surface_area. cbn [tz_dz tz_dy1 tz_dx1 tz_dx2 tz_ta1 tz_dy2 tz_dx3 tz_dx4 tz_ta2 tz_tc tz_ts]. cbv zeta.
  assert (Q : ∀ s p q r, vmag (vcross (vsub q p) (vsub r p)) = 2 * s → triangle_area p q r = s) by (intros s p q r E; unfold triangle_area; rewrite E; field).
  set (n1 := V3 0 (-2 * dz) (- (dy2 - dy1 - 2 * dz * ts))). set (n2 := V3 0 (-2 * dz) (dy2 - dy1 + 2 * dz * ts)).
  assert (N1 : R_sqrt.sqrt (4 * dz * dz + (dy2 - dy1 - 2 * dz * ts) ^ 2) = vmag n1) by (unfold vmag, vdot, n1; cbn [vx vy vz]; f_equal; ring).
  assert (N2 : R_sqrt.sqrt (4 * dz * dz + (dy2 - dy1 + 2 * dz * ts) ^ 2) = vmag n2) by (unfold vmag, vdot, n2; cbn [vx vy vz]; f_equal; ring).
  assert (Nz : vmag (V3 0 0 1) = 1) by (apply vmag_is; [lra|unfold vdot; cbn [vx vy vz]; ring]). rewrite N1, N2.
  assert (T : ∀ v s p q r, 0 <= s → vcross (vsub q p) (vsub r p) = vscale (2 * s) v → triangle_area p q r = s * vmag v).
  { intros v s p q r Hs E. unfold triangle_area. rewrite (vmag_par v _ (2 * s)); [field|lra|done]. }
  assert (U : ∀ a b p q r, vcross (vsub q p) (vsub r p) = vcross a b → triangle_area p q r = 1 / 2 * vmag (vcross a b)).
  { intros a b p q r E. unfold triangle_area. rewrite E. field. }
  assert (U' : ∀ a b p q r, vcross (vsub q p) (vsub r p) = vscale (-1) (vcross a b) → triangle_area p q r = 1 / 2 * vmag (vcross a b)).
  { intros a b p q r E. unfold triangle_area. rewrite E, (vmag_same (vscale (-1) (vcross a b)) (vcross a b)); [field|]. unfold vscale, vdot. cbn [vx vy vz]. ring. }
  unfold c, corners_of, eight, quad_area. cbn [nth c0 c1 c2 c3 c4 c5 c6 c7]. unfold low_corner, high_corner.
  rewrite !Rmult_plus_distr_l.
  match goal with |- _ = triangle_area ?a ?b ?f + triangle_area _ _ ?e + (triangle_area ?c' ?d ?h + triangle_area _ _ ?g) + _ + _ + _ + _ =>
    rewrite (T n1 dx1 a b f), (T n1 dx3 a f e), (T n2 dx2 c' d h), (T n2 dx4 c' h g),
      (T (V3 0 0 1) (2 * dx1 * dy1) a b d), (T (V3 0 0 1) (2 * dx2 * dy1) a d c'), (T (V3 0 0 1) (2 * dx3 * dy2) e f h), (T (V3 0 0 1) (2 * dx4 * dy2) e h g);
    try (by apply Rmult_le_pos; [apply Rmult_le_pos; [lra|]|]);
    try (unfold n1, n2, vcross, vsub, vscale; cbn [vx vy vz]; apply v3_eq; cbn [vx vy vz]; ring); try done
  end.
  rewrite Nz.
  repeat match goal with |- context [triangle_area ?p ?q ?r] => match goal with |- context [1 / 2 * vmag (vcross ?a ?b)] =>
    first [rewrite (U a b p q r) by (unfold vcross, vsub; cbn [vx vy vz]; apply v3_eq; cbn [vx vy vz]; ring)
      | rewrite (U' a b p q r) by (unfold vcross, vsub, vscale; cbn [vx vy vz]; apply v3_eq; cbn [vx vy vz]; ring)] end end.
  ring.
Qed.
Print Assumptions C82_area.
Lemma tri_swap p q r : triangle_area p q r = triangle_area p r q.
Proof. unfold triangle_area. f_equal. apply vmag_same. unfold vdot, vcross, vsub. cbn [vx vy vz]. ring. Qed.
Lemma face_area_quad p q r s : face_area p q r s = quad_area p q r s.
Proof. unfold face_area, quad_area, triangle_area. field. Qed.
Lemma quad_rev p q r s : quad_area p q r s = quad_area p s r q.
Proof. unfold quad_area. rewrite (tri_swap p q r), (tri_swap p r s). ring. Qed.
Section Sides.
Variables (dz tc ts dy1 dx1 dx2 ta1 dy2 dx3 dx4 ta2 th ph : R) (pls : list plane) (ars : list R).
Hypothesis P : proper dz tc ts dy1 dx1 dx2 ta1 dy2 dx3 dx4 ta2.
Let t := make_planes (Trap dz th ph dy1 dx1 dx2 ta1 dy2 dx3 dx4 ta2 tc ts pls ars).
Let E8 := eight dz tc ts dy1 dx1 dx2 ta1 dy2 dx3 dx4 ta2.
Let c := corners_of E8.
(** The areas of the faces kept for sampling sum up to the surface area; each is that of its face. *)
Theorem C82_side_areas : tz_areas t = [quad_area (c0 c) (c1 c) (c5 c) (c4 c); quad_area (c2 c) (c6 c) (c7 c) (c3 c); quad_area (c0 c) (c4 c) (c6 c) (c2 c);
    quad_area (c1 c) (c3 c) (c7 c) (c5 c); quad_area (c0 c) (c2 c) (c3 c) (c1 c); quad_area (c4 c) (c5 c) (c7 c) (c6 c)] ∧
  foldr Rplus 0 (tz_areas t) = surface_area t ∧ Forall (Rle 0) (tz_areas t).
Proof using P.
  destruct (flat _ _ _ _ _ _ _ _ _ _ _ P) as (Ea & E2 & E4). pose proof P as (Hz & Hy1 & Hy2 & H1 & H2 & H3 & H4 & _ & _ & _).
  assert (Ec : to_corners (Trap dz th ph dy1 dx1 dx2 ta1 dy2 dx3 dx4 ta2 tc ts pls ars) = c) by apply to_corners_eight.
  assert (Nz : vmag (V3 0 0 1) = 1) by (apply vmag_is; [lra|unfold vdot; cbn [vx vy vz]; ring]).
  assert (T : ∀ v s p q r, 0 <= s → vcross (vsub q p) (vsub r p) = vscale (2 * s) v → triangle_area p q r = s * vmag v).
  { intros v s p q r Hs E. unfold triangle_area. rewrite (vmag_par v _ (2 * s)); [field|lra|done]. }
  assert (Q4 : quad_area (c0 c) (c1 c) (c3 c) (c2 c) = 2 * (dx1 + dx2) * dy1).
  { unfold quad_area. rewrite (T (V3 0 0 1) (2 * dx1 * dy1)), (T (V3 0 0 1) (2 * dx2 * dy1)), Nz; [ring|..]; try nra;
      unfold c, corners_of, E8, eight, low_corner, high_corner, vcross, vsub, vscale; cbn [nth c0 c1 c2 c3 vx vy vz]; apply v3_eq; cbn [vx vy vz]; ring. }
  assert (Q5 : quad_area (c4 c) (c5 c) (c7 c) (c6 c) = 2 * (dx3 + dx4) * dy2).
  { unfold quad_area. rewrite (T (V3 0 0 1) (2 * dx3 * dy2)), (T (V3 0 0 1) (2 * dx4 * dy2)), Nz; [ring|..]; try nra;
      unfold c, corners_of, E8, eight, low_corner, high_corner, vcross, vsub, vscale; cbn [nth c4 c5 c6 c7 vx vy vz]; apply v3_eq; cbn [vx vy vz]; ring. }
  assert (Q3 : quad_area (c1 c) (c3 c) (c7 c) (c5 c) = quad_area (c3 c) (c7 c) (c5 c) (c1 c)).
  { set (v := V3 1 (- (ta1 + (dx2 - dx1) / (2 * dy1))) (- tc - (dx3 + dx4 - dx1 - dx2) / (4 * dz) + (ta1 + (dx2 - dx1) / (2 * dy1)) * ts)).
    unfold quad_area. rewrite (T v (2 * dz * dy1) (c1 c)), (T v (2 * dz * dy2) (c1 c)), (T v (2 * dz * dy2) (c3 c)), (T v (2 * dz * dy1) (c3 c)); [ring|..]; try nra;
      unfold v, c, corners_of, E8, eight, low_corner, high_corner, vcross, vsub, vscale; cbn [nth c1 c3 c5 c7 vx vy vz]; set (k := (dx2 - dx1) / (2 * dy1)) in *; clearbody k; clear P; rewrite Ea, E4, E2;
      apply v3_eq; cbn [vx vy vz]; field; lra. }
  assert (Nn : ∀ a b d e, 0 <= quad_area a b d e).
  { intros a b d e. unfold quad_area, triangle_area. pose proof (vmag_nonneg (vcross (vsub b a) (vsub d a))). pose proof (vmag_nonneg (vcross (vsub d a) (vsub e a))). lra. }
  assert (A : tz_areas t = [quad_area (c0 c) (c1 c) (c5 c) (c4 c); quad_area (c2 c) (c6 c) (c7 c) (c3 c); quad_area (c0 c) (c4 c) (c6 c) (c2 c);
    quad_area (c1 c) (c3 c) (c7 c) (c5 c); quad_area (c0 c) (c2 c) (c3 c) (c1 c); quad_area (c4 c) (c5 c) (c7 c) (c6 c)]).
  { unfold t, make_planes. rewrite Ec. unfold make_planes_at. cbn [fst tz_areas]. rewrite !face_area_quad. rewrite (quad_rev (c0 c) (c2 c) (c3 c) (c1 c)), Q4, Q5. done. }
  split; [done|]. split.
  - rewrite A. unfold t at 1. rewrite C82_area; cbn [make_planes make_planes_at fst tz_dz tz_dy1 tz_dx1 tz_dx2 tz_ta1 tz_dy2 tz_dx3 tz_dx4 tz_ta2 tz_tc tz_ts]; try lra.
    fold E8 c. cbn [foldr]. rewrite Q3. rewrite (quad_rev (c2 c) (c3 c)), (quad_rev (c0 c) (c2 c) (c6 c)), (quad_rev (c0 c) (c1 c) (c3 c)). ring.
  - rewrite A. repeat (apply Forall_cons; split; [apply Nn|]). by apply Forall_nil.
Qed.
(** A face is always found for a number in [0, 1), each with the share of its area. *)
Lemma pick_share {A} (chose : R) : ∀ (l : list (A * R)) sum, Forall (λ x, 0 <= snd x) l → sum <= chose < sum + foldr (λ x a, snd x + a) 0 l →
  ∃ l1 x l2, l = l1 ++ x :: l2 ∧ sum + foldr (λ x a, snd x + a) 0 l1 <= chose < sum + foldr (λ x a, snd x + a) 0 l1 + snd x ∧
  (fix go (l : list (A * R)) (sum : R) : option A :=
     match l with [] => None | (f, a) :: l => if rgeb chose sum && rltb chose (sum + a) then Some f else go l (sum + a) end) l sum = Some (fst x).
Proof using.
  induction l as [|[f a] l IH]; intros sum F H; [cbn in H; lra|]. apply Forall_cons in F as [Fa F]. cbn [snd foldr] in *.
  destruct (rgeb_spec chose sum); [|lra]. destruct (rltb_spec chose (sum + a)) as [K|K]; cbn [andb].
  - exists [], (f, a), l. split; [done|]. cbn. split; [lra|done].
  - destruct (IH (sum + a) F) as (l1 & x & l2 & -> & H1 & H2); [lra|]. exists ((f, a) :: l1), x, l2. split; [done|]. cbn [foldr snd]. split; [lra|exact H2].
Qed.
Theorem C82_sample_face u : 0 <= u < 1 → let S := surface_area t in
  let faces := [(c0 c, c1 c, c5 c, c4 c); (c2 c, c6 c, c7 c, c3 c); (c0 c, c4 c, c6 c, c2 c); (c1 c, c3 c, c7 c, c5 c); (c0 c, c2 c, c3 c, c1 c); (c4 c, c5 c, c7 c, c6 c)] in
  ∃ i f a, sample_face t c u = Some f ∧ faces !! i = Some f ∧ tz_areas t !! i = Some a ∧
    foldr Rplus 0 (take i (tz_areas t)) <= u * S < foldr Rplus 0 (take i (tz_areas t)) + a.
Proof using P.
  intros Hu S faces. destruct C82_side_areas as (A & B & C). fold S in B.
  assert (HS : 0 < S).
  { unfold S, surface_area. destruct P as (Hz & Hy1 & Hy2 & H1 & H2 & H3 & H4 & H5 & H6 & _). unfold t. cbn [make_planes make_planes_at fst tz_dz tz_dy1 tz_dx1 tz_dx2 tz_ta1 tz_dy2 tz_dx3 tz_dx4 tz_ta2 tz_tc tz_ts].
    match goal with |- 0 < ?a + ?b + _ * R_sqrt.sqrt ?x + _ * R_sqrt.sqrt ?y + 1 / 2 * (vmag ?m1 + vmag ?m2 + vmag ?m3 + vmag ?m4) =>
      pose proof (vmag_nonneg m1); pose proof (vmag_nonneg m2); pose proof (vmag_nonneg m3); pose proof (vmag_nonneg m4);
      assert (0 < R_sqrt.sqrt x) by (apply sqrt_lt_R0; match goal with |- 0 < _ + ?b ^ 2 => pose proof (pow2_ge_0 b); nra end); assert (0 < R_sqrt.sqrt y) by (apply sqrt_lt_R0; match goal with |- 0 < _ + ?b ^ 2 => pose proof (pow2_ge_0 b); nra end) end.
    assert (0 <= 2 * dy1 * (dx1 + dx2)) by nra. assert (0 <= 2 * dy2 * (dx3 + dx4)) by nra.
    match goal with |- 0 < ?a + ?b + ?p * R_sqrt.sqrt ?x + ?q * R_sqrt.sqrt ?y + _ => assert (0 < p * R_sqrt.sqrt x) by (apply Rmult_lt_0_compat; lra); assert (0 < q * R_sqrt.sqrt y) by (apply Rmult_lt_0_compat; lra) end. lra. }
  unfold sample_face. fold S faces. set (l := combine faces (tz_areas t)).
  assert (Hl : l = zip faces (tz_areas t)) by done.
  destruct (pick_share (u * S) l 0) as (l1 & x & l2 & El & Hx & E).
  - unfold l. rewrite A in C |- *. cbn [combine]. rewrite !Forall_cons in C. repeat (constructor; [cbn [snd]; tauto|]). constructor.
  - assert (foldr (λ (x : v3 * v3 * v3 * v3 * R) a, snd x + a) 0 l = S) as -> by (rewrite <- B; unfold l; rewrite A; done). nra.
  - assert (Hi : l !! length l1 = Some x) by (rewrite El; by rewrite lookup_app_r, Nat.sub_diag by lia).
    exists (length l1), (fst x), (snd x). split; [exact E|].
    rewrite Hl, lookup_zip_with in Hi. destruct (faces !! length l1) as [f|]; [|done]. cbn [mbind option_bind] in Hi.
    destruct (tz_areas t !! length l1) as [a|] eqn:Ea; [|done]. cbn [mbind option_bind] in Hi. injection Hi as <-. cbn [fst snd]. split; [done|]. split; [done|].
    assert (G : foldr (λ (x : v3 * v3 * v3 * v3 * R) a, snd x + a) 0 l1 = foldr Rplus 0 (take (length l1) (tz_areas t))).
    { assert (l1 = take (length l1) l) as El1 by (rewrite El; by rewrite take_app). rewrite El1 at 1. unfold l. rewrite combine_firstn.
      assert (Lf : (length l1 < 6)%nat). { apply lookup_lt_Some in Ea. rewrite A in Ea. exact Ea. }
      assert (Z : ∀ (a : list (v3 * v3 * v3 * v3)) b, length a = length b → foldr (λ (x : v3 * v3 * v3 * v3 * R) a, snd x + a) 0 (combine a b) = foldr Rplus 0 b).
      { intros a'. induction a' as [|y a' IH]; intros [|b bs] Hb; try done. cbn. f_equal. apply IH. by injection Hb. }
      apply Z. rewrite !take_length, A. done. }
    cbn [snd] in Hx. rewrite <- G. lra.
Qed.
End Sides.
Print Assumptions C82_side_areas.
Print Assumptions C82_sample_face.
(** GetPointOnPlane: a point of the face. *)
Theorem C82_sample_point p0 p1 p2 p3 ch l1 l2 : 0 <= l2 <= l1 → l1 <= 1 → hull [p0; p1; p2; p3] (point_on_plane p0 p1 p2 p3 ch l1 l2).
Proof.
  intros H1 H2. unfold point_on_plane. cbv zeta. destruct (_ && _).
  - exists [l2; 0; 1 - l1; l1 - l2]. split; [done|]. split; [repeat (apply Forall_cons; split; [lra|]); by apply Forall_nil|]. split; [cbn; ring|]. unfold mix. cbn [zip_with foldr]. apply v3_eq; cbn; ring.
  - exists [1 - l1; l1 - l2; l2; 0]. split; [done|]. split; [repeat (apply Forall_cons; split; [lra|]); by apply Forall_nil|]. split; [cbn; ring|]. unfold mix. cbn [zip_with foldr]. apply v3_eq; cbn; ring.
Qed.
(** Not uniform: the half of the draws with l1 below 1/2 lands in a quarter of the triangle. *)
Theorem C82_sample_uniform_refuted p0 p1 p2 p3 ch l1 l2 : 0 <= l2 <= l1 → l1 <= 1 / 2 → triangle_area p2 p3 p0 = ch → 0 < ch →
  let m := vadd p2 (vscale (1 / 2) (vsub p3 p2)) in let n := vadd p2 (vscale (1 / 2) (vsub p0 p2)) in
  hull [p2; m; n] (point_on_plane p0 p1 p2 p3 (ch / 2) l1 l2) ∧ triangle_area p2 m n = ch / 4.
Proof.
  intros H1 H2 Ha Hp m n. unfold point_on_plane. cbv zeta.
  assert (E : 1 / 2 * vmag (vcross (vsub p0 p3) (vsub p3 p2)) = ch).
  { rewrite <- Ha. unfold triangle_area. rewrite (vmag_same (vcross (vsub p3 p2) (vsub p0 p2)) (vcross (vsub p0 p3) (vsub p3 p2))); [field|]. unfold vdot, vcross, vsub. cbn [vx vy vz]. ring. }
  rewrite E. destruct (rgeb_spec (ch / 2) 0); [|lra]. destruct (rltb_spec (ch / 2) ch); [|lra]. cbn [andb]. split.
  - exists [1 - 2 * l1; 2 * l1 - 2 * l2; 2 * l2]. split; [done|]. split; [repeat (apply Forall_cons; split; [lra|]); by apply Forall_nil|]. split; [cbn; ring|].
    unfold mix, m, n. cbn [zip_with foldr]. apply v3_eq; cbn; field.
  - rewrite <- Ha. unfold triangle_area. rewrite (vmag_par (vcross (vsub p3 p2) (vsub p0 p2)) _ (1 / 4)); [field|lra|].
    unfold m, n, vcross, vsub, vscale, vadd. cbn [vx vy vz]. apply v3_eq; cbn [vx vy vz]; field.
Qed.
Print Assumptions C82_sample_point.
Print Assumptions C82_sample_uniform_refuted.
(** SetTheta and SetPhi: the solid of the new parameters. *)
Theorem C82_set_angles t v p :
  let S theta phi := let tc := tan theta * cos phi in let ts := tan theta * sin phi in
    eight (tz_dz t) tc ts (tz_dy1 t) (tz_dx1 t) (tz_dx2 t) (tz_ta1 t) (tz_dy2 t) (tz_dx3 t) (tz_dx4 t) (tz_ta2 t) in
  let ok theta phi := proper (tz_dz t) (tan theta * cos phi) (tan theta * sin phi) (tz_dy1 t) (tz_dx1 t) (tz_dx2 t) (tz_ta1 t) (tz_dy2 t) (tz_dx3 t) (tz_dx4 t) (tz_ta2 t) in
  (ok v (tz_phi t) → trap_contains (set_theta t v) p = true ↔ hull (S v (tz_phi t)) p) ∧
  (ok (tz_theta t) v → trap_contains (set_phi t v) p = true ↔ hull (S (tz_theta t) v) p).
Proof. split; intros P; [unfold set_theta|unfold set_phi]; apply (C82_contains _ _ _ _ _ _ _ _ _ _ _ _ _ _ _ P). Qed.
(** SetDz, SetDx1 and the like leave the planes as they were: a point 1/2 beyond every point of the new solid is contained,
    and Contains does not see the new dx1 while Capacity does. *)
Theorem C82_setters_refuted : let t := mk_trap_trd1 1 3 1 1 in let p := V3 (7/2) 0 2 in
  trap_contains (set_dz t 2) p = true ∧ trap_contains (mk_trap_trd1 1 3 1 2) p = false ∧
  (∀ t v q, trap_contains (set_dx1 t v) q = trap_contains t q) ∧ capacity (set_dx1 t 2) ≠ capacity t.
Proof.
  intros t p. split; [|split; [|split; [done|]]].
  - assert (P : proper 1 0 0 1 1 1 0 1 3 3 0) by (unfold proper; repeat split; try lra; flatten).
    assert (Et : t = make_planes (Trap 1 0 0 1 1 1 0 1 3 3 0 0 0 zero_planes [])) by (unfold t, mk_trap_trd1, trap_struct; rewrite tan_0, !Rmult_0_l; done).
    apply contains_top, top_le, (all_six (set_dz t 2) (λ x, x <= 0)). split; [|change (tz_dz (set_dz t 2)) with 2; change (vz p) with 2; lra].
    change (tz_planes (set_dz t 2)) with (tz_planes t). apply cut_iff. rewrite Et.
    rewrite (planes_t 1 0 0 1 1 1 0 1 3 3 0 0 0 zero_planes [] P). apply cut_sides. unfold p. cbn [vx vy vz]. split; rewrite Rabs_pos_eq; lra.
  - destruct (trap_contains (mk_trap_trd1 1 3 1 2) p) eqn:E; [|done]. exfalso. apply C82_make_trd1 in E as (_ & _ & E); try lra. unfold p in E. cbn [vx vz] in E. rewrite Rabs_pos_eq in E; lra.
  - unfold capacity, t. cbn. lra.
Qed.
(** theta() and phi() of a negative theta describe the mirrored solid. *)
Theorem C82_angles_refuted : let t := mk_trap 1 (- (PI / 4)) 0 (1/2) (1/2) (1/2) 0 (1/2) (1/2) (1/2) 0 in let p := V3 1 0 (-1) in
  get_theta t = PI / 4 ∧ get_phi t = Some 0 ∧ trap_contains t p = true ∧
  trap_contains (mk_trap 1 (get_theta t) 0 (1/2) (1/2) (1/2) 0 (1/2) (1/2) (1/2) 0) p = false.
Proof.
  intros t p. pose proof PI_RGT_0 as Hp. assert (Eth : get_theta t = PI / 4).
  { unfold get_theta, t. cbn [tz_theta mk_trap make_planes make_planes_at fst trap_struct]. destruct (rltb_spec (- (PI / 4)) 0); [|lra]. cbn [orb].
    rewrite tan_neg, tan_PI4, Rabs_Ropp, Rabs_R1. apply atan_1. }
  assert (Em : ∀ th, mk_trap 1 th 0 (1/2) (1/2) (1/2) 0 (1/2) (1/2) (1/2) 0 = mk_trap_para (1/2) (1/2) 1 0 th 0) by done.
  split; [done|]. split; [|split].
  - unfold get_phi, t. cbn [tz_phi mk_trap make_planes make_planes_at fst trap_struct]. destruct (rltb_spec 0 (- PI)); [lra|]. destruct (rgeb_spec 0 PI); [lra|done].
  - unfold t. rewrite Em. apply C82_make_para; [lra..|]. rewrite sin_0, cos_0, tan_neg, tan_PI4, tan_0. unfold p. cbn [vx vy vz].
    assert (Rabs (-1) = 1) as -> by (rewrite Rabs_left; lra). replace (0 - - (1) * 0 * -1) with 0 by ring. replace (1 - - (1) * 1 * -1 - 0 * 0) with 0 by ring. rewrite Rabs_R0. lra.
  - rewrite Eth, Em. destruct (trap_contains _ p) eqn:E; [|done]. exfalso. apply C82_make_para in E as (_ & _ & E); [|lra..].
    rewrite sin_0, cos_0, tan_PI4, tan_0 in E. unfold p in E. cbn [vx vy vz] in E. replace (1 - 1 * 1 * -1 - 0 * (0 - 1 * 0 * -1)) with 2 in E by ring.
    rewrite Rabs_pos_eq in E; lra.
Qed.
(** MakePlanes answers for the +X face only: a twisted -X face passes, with NDEBUG or without. *)
Theorem C82_twisted_refuted nd phi : let c := corners_of (eight 1 0 0 1 1 2 0 1 1 1 (1/2)) in
  (∃ t, mk_trap_corners nd phi c = Some (t, true)) ∧ triple (c0 c) (c2 c) (c4 c) (c6 c) = 8.
Proof.
  intros c. split.
  - unfold mk_trap_corners. cbv zeta. destruct (reqb_spec (vz (c7 c)) 0) as [E|_]; [cbn in E; lra|].
    destruct (reqb_spec (1 / 2 * (vy (c2 c) - vy (c0 c))) 0) as [E|_]; [cbn in E; lra|]. destruct (reqb_spec (1 / 2 * (vy (c6 c) - vy (c4 c))) 0) as [E|_]; [cbn in E; lra|].
    cbn [orb]. eexists. unfold make_planes_at. f_equal. f_equal. apply good_of. unfold triple, vdot, vcross, vsub, c, corners_of, eight, low_corner, high_corner. cbn [nth c1 c3 c5 c7 vx vy vz]. lra.
  - unfold triple, vdot, vcross, vsub, c, corners_of, eight, low_corner, high_corner. cbn [nth c0 c2 c4 c6 vx vy vz]. lra.
Qed.
Print Assumptions C82_set_angles.
Print Assumptions C82_setters_refuted.
Print Assumptions C82_angles_refuted.
Print Assumptions C82_twisted_refuted.
(** The slanted trapezoid of PropTrap.v: capacity 2 * ((5+13/2+11/4+35/4)*5 + 0) = 230. *)
Example slanted_capacity : capacity (make_planes (Trap 2 0 0 1 5 (13/2) 0 4 (11/4) (35/4) 0 0 0 zero_planes [])) = 230.
Proof. unfold capacity. cbn. field. Qed.
