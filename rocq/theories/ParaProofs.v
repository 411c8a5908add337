(** Lemmas about parallelepipeds. *)
From Coq Require Import Reals Lra Lia Bool ZArith Psatz.
From stdpp Require Import base list option numbers tactics.
From Verif Require Import Real3 AABBModel AABBSpec AABBProofs BoxModel BoxSpec BoxProofs PlanesModel PlanesSpec PlanesProofs TrapModel TrapSpec ParaModel ParaSpec.
Import stdpp.list.
Local Open Scope R_scope.

(** What the setters keep true. *)
Record good (s : para) : Prop := Good {
  g_ta : pp_ta s = tan (pp_alpha s);
  g_tc : pp_tc s = tan (pp_theta s) * cos (pp_phi s);
  g_ts : pp_ts s = tan (pp_theta s) * sin (pp_phi s);
  g_nx : pp_nx s = unitize (vcross (edge_y (pp_ta s)) (edge_z (pp_tc s) (pp_ts s)));
  g_ny : pp_ny s = unitize (vcross (edge_z (pp_tc s) (pp_ts s)) edge_x);
  g_nz : pp_nz s = V3 0 0 1;
  g_cx : pp_ctx s = Rabs (vx (pp_nx s));
  g_cy : pp_cty s = Rabs (vy (pp_ny s)) }.
Lemma good_make dim alpha theta phi : good (para_struct dim alpha theta phi).
Proof. by split. Qed.
Lemma good_do u o : good (up_para u) → good (up_para (para_do u o)).
Proof. intros [A B C D E F G H]. destruct o; split; cbn; try done. Qed.
Lemma good_reachable s : reachable s → good s.
Proof.
  intros (dx & dy & dz & alpha & theta & phi & ops & ->). unfold history.
  assert (K : ∀ ops u, good (up_para u) → good (up_para (foldl para_do u ops))).
  { induction ops0 as [|o ops0 IH]; intros u Hu; [done|]. cbn [foldl]. apply IH, good_do, Hu. }
  apply K. apply good_make.
Qed.

Section Good.
Variable s : para.
Hypothesis G : good s.
Let ta := pp_ta s. Let tc := pp_tc s. Let ts := pp_ts s.
Let dx := vx (pp_dim s). Let dy := vy (pp_dim s). Let dz := vz (pp_dim s).
Lemma transform_skewed a b c : transform s (skewed ta tc ts a b c) = V3 a b c.
Proof using. unfold transform, skewed, edge_x, edge_y, edge_z. apply v3_eq; cbn; fold ta tc ts; ring. Qed.
Lemma skewed_transform p : skewed ta tc ts (vx (transform s p)) (vy (transform s p)) (vz (transform s p)) = p.
Proof using. unfold transform, skewed, edge_x, edge_y, edge_z. apply v3_eq; cbn; fold ta tc ts; ring. Qed.
Lemma transform_along p d t : transform s (along p d t) = along (transform s p) (transform s d) t.
Proof using. unfold transform, along. apply v3_eq; cbn; ring. Qed.
Lemma transform_sub p d : transform s (vsub p d) = vsub (transform s p) (transform s d).
Proof using. unfold transform. apply v3_eq; cbn; ring. Qed.
Lemma oblique_closed p : oblique ta tc ts dx dy dz p ↔ closed (pp_dim s) (transform s p).
Proof using.
  unfold closed, in_box, centred, vneg. cbn [bmin bmax vscale vx vy vz]. split.
  - intros (a & b & c & A & B & C & ->). rewrite transform_skewed. cbn [vx vy vz]. apply abs_le in A, B, C. fold dx dy dz. lra.
  - intros (A & B & C). exists (vx (transform s p)), (vy (transform s p)), (vz (transform s p)). rewrite !abs_le, skewed_transform. fold dx dy dz in A, B, C. repeat split; lra.
Qed.
Lemma core_interior p : oblique_core ta tc ts dx dy dz p ↔ interior (pp_dim s) (transform s p).
Proof using.
  unfold interior, in_interior, centred, vneg. cbn [bmin bmax vscale vx vy vz]. split.
  - intros (a & b & c & A & B & C & ->). rewrite transform_skewed. cbn [vx vy vz]. apply abs_lt in A, B, C. fold dx dy dz. lra.
  - intros (A & B & C). exists (vx (transform s p)), (vy (transform s p)), (vz (transform s p)). rewrite !abs_lt, skewed_transform. fold dx dy dz in A, B, C. repeat split; lra.
Qed.
Definition lx : R := vmag (vcross (edge_y ta) (edge_z tc ts)).
Definition ly : R := vmag (vcross (edge_z tc ts) edge_x).
Lemma mag_pos v : vx v = 1 ∨ vy v = 1 → 0 < vmag v.
Proof using.
  intros Hv. assert (H : vdot v v ≠ 0).
  { unfold vdot. pose proof (Rle_0_sqr (vx v)). pose proof (Rle_0_sqr (vy v)). pose proof (Rle_0_sqr (vz v)). unfold Rsqr in *. destruct Hv as [E|E]; rewrite E in *; lra. }
  pose proof (vmag_sqr v). pose proof (vmag_nonneg v). destruct (Req_dec (vmag v) 0) as [E|]; [rewrite E in *; lra|lra]. Qed.
Lemma lx_pos : 0 < lx.
Proof using. apply mag_pos. left. cbn. ring. Qed.
Lemma ly_pos : 0 < ly.
Proof using. apply mag_pos. right. cbn. ring. Qed.
Lemma ctx_eq : pp_ctx s = 1 / lx.
Proof using G.
  rewrite (g_cx _ G), (g_nx _ G). unfold unitize. fold ta tc ts. fold lx. pose proof lx_pos. cbn. rewrite Rabs_pos_eq; [field; lra|].
  replace (1 / lx * _) with (1 / lx) by (field; lra). apply Rlt_le, Rdiv_lt_0_compat; lra.
Qed.
Lemma cty_eq : pp_cty s = 1 / ly.
Proof using G.
  rewrite (g_cy _ G), (g_ny _ G). unfold unitize. fold ta tc ts. fold ly. pose proof ly_pos. cbn. rewrite Rabs_pos_eq; [field; lra|].
  replace (1 / ly * _) with (1 / ly) by (field; lra). apply Rlt_le, Rdiv_lt_0_compat; lra.
Qed.
Lemma ctx_pos : 0 < pp_ctx s.
Proof using G. rewrite ctx_eq. pose proof lx_pos. apply Rdiv_lt_0_compat; lra. Qed.
Lemma cty_pos : 0 < pp_cty s.
Proof using G. rewrite cty_eq. pose proof ly_pos. apply Rdiv_lt_0_compat; lra. Qed.

(** The facets in terms of the members. *)
Let F := facets ta tc ts dx dy dz.
Lemma vmag_neg v : vmag (vneg v) = vmag v.
Proof using. unfold vneg. rewrite vmag_scale. rewrite Rabs_left by lra. lra. Qed.
Lemma vmag_e3 : vmag (V3 0 0 1) = 1.
Proof using. unfold vmag, vdot. cbn [vx vy vz]. replace (0 * 0 + 0 * 0 + 1 * 1) with 1 by lra. apply sqrt_1. Qed.
Lemma facets_eq : F = [(pp_nx s, - (pp_ctx s * dx)); (vneg (pp_nx s), - (pp_ctx s * dx)); (pp_ny s, - (pp_cty s * dy)); (vneg (pp_ny s), - (pp_cty s * dy));
  (V3 0 0 1, - dz); (V3 0 0 (-1), - dz)].
Proof using G.
  unfold F, facets. cbv zeta. rewrite ctx_eq, cty_eq, (g_nx _ G), (g_ny _ G). fold ta tc ts. pose proof lx_pos. pose proof ly_pos.
  assert (E3 : vcross edge_x (edge_y ta) = V3 0 0 1) by (apply v3_eq; cbn; ring). rewrite E3.
  unfold wall. rewrite !vmag_neg, vmag_e3. unfold unitize. fold lx ly.
  repeat (apply f_equal2; [apply f_equal2; [apply v3_eq; cbn; field; lra|field; lra]|]). done.
Qed.
Lemma height_x p : height (pp_nx s) (- (pp_ctx s * dx)) p = pp_ctx s * (vx (transform s p) - dx).
Proof using G.
  rewrite ctx_eq, (g_nx _ G). fold ta tc ts. unfold unitize. fold lx. pose proof lx_pos. unfold height, transform. cbn. fold ta tc ts. field; lra.
Qed.
Lemma height_y p : height (pp_ny s) (- (pp_cty s * dy)) p = pp_cty s * (vy (transform s p) - dy).
Proof using G.
  rewrite cty_eq, (g_ny _ G). fold ta tc ts. unfold unitize. fold ly. pose proof ly_pos. unfold height, transform. cbn. fold ta tc ts. field; lra.
Qed.
Lemma height_neg n k p : height (vneg n) k p = - height n k p + 2 * k.
Proof using. unfold height, vneg. cbn. ring. Qed.
Lemma height_xn p : height (vneg (pp_nx s)) (- (pp_ctx s * dx)) p = pp_ctx s * (- vx (transform s p) - dx).
Proof using G. rewrite height_neg, height_x. ring. Qed.
Lemma height_yn p : height (vneg (pp_ny s)) (- (pp_cty s * dy)) p = pp_cty s * (- vy (transform s p) - dy).
Proof using G. rewrite height_neg, height_y. ring. Qed.
Lemma height_z p : height (V3 0 0 1) (- dz) p = vz (transform s p) - dz.
Proof using. unfold height, transform. cbn. ring. Qed.
Lemma height_zn p : height (V3 0 0 (-1)) (- dz) p = - vz (transform s p) - dz.
Proof using. unfold height, transform. cbn. ring. Qed.
Definition ptop (p : v3) : R := vmax (safety_vector s (transform s p)).
Lemma abs_cases x a : (0 <= x ∧ Rabs x - a = x - a) ∨ (x < 0 ∧ Rabs x - a = - x - a).
Proof using. unfold Rabs. destruct (Rcase_abs x); [right|left]; lra. Qed.
Lemma sv_x p : vx (safety_vector s (transform s p)) = Rmax (height (pp_nx s) (- (pp_ctx s * dx)) p) (height (vneg (pp_nx s)) (- (pp_ctx s * dx)) p).
Proof using G.
  rewrite height_x, height_xn. unfold safety_vector. cbn [vx vy vz vsub vabs]. fold dx. pose proof ctx_pos. set (c := pp_ctx s) in *. set (x := vx (transform s p)). clearbody c x.
  destruct (abs_cases x dx) as [[? ->]|[? ->]]; unfold Rmax; destruct (Rle_dec _ _); nra.
Qed.
Lemma sv_y p : vy (safety_vector s (transform s p)) = Rmax (height (pp_ny s) (- (pp_cty s * dy)) p) (height (vneg (pp_ny s)) (- (pp_cty s * dy)) p).
Proof using G.
  rewrite height_y, height_yn. unfold safety_vector. cbn [vx vy vz vsub vabs]. fold dy. pose proof cty_pos. set (c := pp_cty s) in *.
  set (x := vy (transform s p)). clearbody c x.
  destruct (abs_cases x dy) as [[? ->]|[? ->]]; unfold Rmax; destruct (Rle_dec _ _); nra.
Qed.
Lemma sv_z p : vz (safety_vector s (transform s p)) = Rmax (height (V3 0 0 1) (- dz) p) (height (V3 0 0 (-1)) (- dz) p).
Proof using.
  rewrite height_z, height_zn. unfold safety_vector. cbn [vx vy vz vsub vabs]. fold dz. destruct (abs_cases (vz (transform s p)) dz) as [[? ->]|[? ->]]; unfold Rmax; destruct (Rle_dec _ _); lra.
Qed.
Definition pls : list plane := [Plane (pp_nx s) (- (pp_ctx s * dx)); Plane (vneg (pp_nx s)) (- (pp_ctx s * dx)); Plane (pp_ny s) (- (pp_cty s * dy)); Plane (vneg (pp_ny s)) (- (pp_cty s * dy));
  Plane (V3 0 0 1) (- dz); Plane (V3 0 0 (-1)) (- dz)].
Lemma pls_facets : halves pls = F.
Proof using G. rewrite facets_eq. done. Qed.
Lemma top_spec p : (∀ pl, In pl pls → pl_dist pl p <= ptop p) ∧ ∃ pl, In pl pls ∧ pl_dist pl p = ptop p.
Proof using G.
  unfold ptop. pose proof (sv_x p) as X. pose proof (sv_y p) as Y. pose proof (sv_z p) as Z. split.
  - intros pl Hi. rewrite <- height_dist. unfold vmax. rewrite X, Y, Z.
    destruct Hi as [<-|[<-|[<-|[<-|[<-|[<-|[]]]]]]]; cbn [pl_n pl_d];
    (eapply Rle_trans; [|apply Rmax_l]; eapply Rle_trans; [|apply Rmax_l]; (apply Rmax_l || apply Rmax_r)) ||
    (eapply Rle_trans; [|apply Rmax_l]; eapply Rle_trans; [|apply Rmax_r]; (apply Rmax_l || apply Rmax_r)) ||
    (eapply Rle_trans; [|apply Rmax_r]; (apply Rmax_l || apply Rmax_r)).
  - assert (M : ∀ n1 k1 n2 k2, In (Plane n1 k1) pls → In (Plane n2 k2) pls → ∃ pl, In pl pls ∧ pl_dist pl p = Rmax (height n1 k1 p) (height n2 k2 p)).
    { intros n1 k1 n2 k2 H1 H2. unfold Rmax. destruct (Rle_dec _ _); [exists (Plane n2 k2)|exists (Plane n1 k1)]; rewrite <- height_dist; auto. }
    unfold pls in *. destruct (vmax_attained (safety_vector s (transform s p))) as [E|[E|E]]; rewrite E; [rewrite X|rewrite Y|rewrite Z]; apply M; cbn; auto 10.
Qed.
Lemma unit_facets : unit_normals F.
Proof using G.
  rewrite facets_eq. intros n k Hi.
  assert (U : ∀ v, 0 < vmag v → vdot (unitize v) (unitize v) = 1).
  { intros v Hv. unfold unitize. pose proof (vmag_sqr v) as E. replace (vdot (vscale (1 / vmag v) v) (vscale (1 / vmag v) v)) with (vdot v v / (vmag v * vmag v)) by (unfold vdot; cbn [vscale vx vy vz]; field; lra). rewrite <- E. field; lra. }
  assert (Ux : vdot (pp_nx s) (pp_nx s) = 1) by (rewrite (g_nx _ G); apply U, lx_pos).
  assert (Uy : vdot (pp_ny s) (pp_ny s) = 1) by (rewrite (g_ny _ G); apply U, ly_pos).
  assert (N : ∀ v, vdot v v = 1 → vdot (vneg v) (vneg v) = 1) by (intros v <-; unfold vdot, vneg; cbn [vscale vx vy vz]; ring).
  destruct Hi as [[= <- _]|[[= <- _]|[[= <- _]|[[= <- _]|[[= <- _]|[[= <- _]|[]]]]]]]; auto; unfold vdot; cbn [vx vy vz]; ring.
Qed.
Lemma short_facets : short_normals F.
Proof using G. intros n k Hi. rewrite (unit_facets n k Hi). lra. Qed.
Lemma top_le p k : ptop p <= k ↔ Rabs (vx (transform s p)) - dx <= k / pp_ctx s ∧ Rabs (vy (transform s p)) - dy <= k / pp_cty s ∧ Rabs (vz p) - dz <= k.
Proof using G.
  unfold ptop. rewrite vmax_le. unfold safety_vector. cbn [vx vy vz vsub vabs]. fold dx dy dz. pose proof ctx_pos as Cx. pose proof cty_pos as Cy.
  assert (E : ∀ c x, 0 < c → x * c <= k ↔ x <= k / c).
  { intros c x Hc. split; intros H; [apply (Rmult_le_reg_r c); [done|]; replace (k / c * c) with k by (field; lra); done|].
    apply (Rmult_le_compat_r c) in H; [|lra]. replace (k / c * c) with k in H by (field; lra). done. }
  rewrite !E by done. done.
Qed.
Lemma top_closed p : ptop p <= 0 ↔ closed (pp_dim s) (transform s p).
Proof using G. rewrite top_le, <- outer_closed. unfold box_outer. rewrite vmax_le. cbn [vx vy vz vsub vabs]. fold dx dy dz. unfold Rdiv. rewrite !Rmult_0_l. done. Qed.
Lemma top_interior p : ptop p < 0 ↔ interior (pp_dim s) (transform s p).
Proof using G.
  rewrite <- outer_interior. unfold ptop, box_outer. rewrite !vmax_lt. unfold safety_vector. cbn [vx vy vz vsub vabs]. fold dx dy dz. pose proof ctx_pos as Cx. pose proof cty_pos as Cy.
  assert (E : ∀ c x, 0 < c → x * c < 0 ↔ x < 0) by (intros c x Hc; split; intros; nra). rewrite !E by done. done.
Qed.
Lemma top_cut p : ptop p <= 0 ↔ cut F p.
Proof using G.
  destruct (top_spec p) as (A & pl & Hi & B). rewrite <- pls_facets, cut_iff. split; [intros H q Hq; specialize (A _ Hq); lra|]. intros H. specialize (H _ Hi). lra.
Qed.
Lemma top_cut_open p : ptop p < 0 ↔ cut_open F p.
Proof using G.
  destruct (top_spec p) as (A & pl & Hi & B). rewrite <- pls_facets. unfold cut_open. split.
  - intros H n k Hq. apply in_halves in Hq. specialize (A _ Hq). rewrite <- height_dist in A. cbn [pl_n pl_d] in A. lra.
  - intros H. specialize (H (pl_n pl) (pl_d pl)). rewrite height_dist in H. destruct pl. rewrite <- B. apply H. by apply in_halves.
Qed.

(** Rays. *)
Definition bent (d : v3) : v3 := let v := vnonzero (transform s d) in skewed ta tc ts (vx v) (vy v) (vz v).
Lemma bent_transform d : transform s (bent d) = vnonzero (transform s d).
Proof using. unfold bent. rewrite transform_skewed. done. Qed.
Lemma bent_nearly d : nearly ta tc ts kTiny d (bent d).
Proof using.
  unfold nearly. pose proof kTiny_pos. set (w := vsub (bent d) d). exists (vx (transform s w)), (vy (transform s w)), (vz (transform s w)). rewrite skewed_transform.
  unfold w. rewrite transform_sub, bent_transform. unfold vnonzero. cbn [vx vy vz vsub].
  assert (K : ∀ x, Rabs (nonzero x - x) <= kTiny) by (intros x; apply abs_le; unfold nonzero; destruct (rltb x 0); lra).
  repeat split; apply K.
Qed.
Lemma bent_closed p d t : oblique ta tc ts dx dy dz (along p (bent d) t) ↔ dist_in (pp_dim s) (transform s p) (transform s d) <= t <= dist_out (pp_dim s) (transform s p) (transform s d).
Proof using. rewrite oblique_closed, transform_along, bent_transform. apply closed_ray. Qed.
Lemma bent_core p d t : oblique_core ta tc ts dx dy dz (along p (bent d) t) ↔ dist_in (pp_dim s) (transform s p) (transform s d) < t < dist_out (pp_dim s) (transform s p) (transform s d).
Proof using. rewrite core_interior, transform_along, bent_transform. apply interior_ray. Qed.
Lemma rsign_nonzero x : rsign (nonzero x) = rsign x.
Proof using. pose proof kTiny_pos. unfold rsign, nonzero. destruct (rltb_spec x 0); match goal with |- context [rltb ?a ?b] => destruct (rltb_spec a b) end; lra. Qed.
Lemma rsign_inv x : rsign (1 / nonzero x) = rsign x.
Proof using.
  rewrite <- (rsign_nonzero x). pose proof kTiny_pos. assert (nonzero x ≠ 0) by (unfold nonzero; destruct (rltb_spec x 0); lra). set (y := nonzero x) in *. clearbody y.
  unfold rsign. destruct (rltb_spec y 0) as [L|L].
  - assert (1 / y < 0) by (apply Rmult_lt_reg_r with (- y); [lra|]; replace (1 / y * - y) with (-1) by (field; lra); lra). destruct (rltb_spec (1 / y) 0); lra.
  - assert (0 < 1 / y) by (apply Rdiv_lt_0_compat; lra). destruct (rltb_spec (1 / y) 0); lra.
Qed.
Lemma para_out_eq p d : para_to_out s p d = if rgtb (ptop p) kHalfTolerance then -1 else dist_out (pp_dim s) (transform s p) (transform s d).
Proof using.
  unfold para_to_out. cbv zeta. fold (ptop p). destruct (rgtb (ptop p) kHalfTolerance); [done|]. unfold dist_out, tout, vsign. cbn [vx vy vz vsub vmul]. rewrite !rsign_nonzero.
  f_equal. pose proof kTiny_pos. assert (N : ∀ x, nonzero x ≠ 0) by (intros x; unfold nonzero; destruct (rltb_spec x 0); lra).
  apply v3_eq; cbn [vx vy vz]; field; apply N.
Qed.
Definition leaving (p d : v3) : bool :=
  let q := transform s p in let v := transform s d in let sv := safety_vector s q in
  (rgeb (vx sv) (- kHalfTolerance) && rgeb (vx q * vx v) 0) || (rgeb (vy sv) (- kHalfTolerance) && rgeb (vy q * vy v) 0) || (rgeb (vz sv) (- kHalfTolerance) && rgeb (vz q * vz v) 0).
Lemma para_in_eq inf p d : para_to_in inf s p d =
  let i := dist_in (pp_dim s) (transform s p) (transform s d) in let o := dist_out (pp_dim s) (transform s p) (transform s d) in
  if negb (leaving p d) && rgtb o (i + kHalfTolerance) then i else inf.
Proof using.
  unfold para_to_in. cbv zeta. fold (leaving p d). unfold vsign. cbn [vx vy vz]. rewrite !rsign_inv.
  assert (Eo : vmin (vmul (vsub (vmul (V3 (rsign (vx (transform s d))) (rsign (vy (transform s d))) (rsign (vz (transform s d)))) (pp_dim s)) (transform s p))
     (V3 (1 / nonzero (vx (transform s d))) (1 / nonzero (vy (transform s d))) (1 / nonzero (vz (transform s d))))) = dist_out (pp_dim s) (transform s p) (transform s d)) by done.
  assert (Ei : vmax (vmul (vsub (vneg (vmul (V3 (rsign (vx (transform s d))) (rsign (vy (transform s d))) (rsign (vz (transform s d)))) (pp_dim s))) (transform s p))
     (V3 (1 / nonzero (vx (transform s d))) (1 / nonzero (vy (transform s d))) (1 / nonzero (vz (transform s d))))) = dist_in (pp_dim s) (transform s p) (transform s d)).
  { unfold dist_in, tin. f_equal. apply v3_eq; cbn; ring. }
  rewrite Eo, Ei. done.
Qed.
(** A ray that leaves comes not deeper than half a tolerance. *)
Lemma leaving_top p d t : leaving p d = true → 0 <= t → - kHalfTolerance <= ptop (along p d t).
Proof using G.
  intros H Ht. pose proof ctx_pos as Cx. pose proof cty_pos as Cy.
  assert (A : ∀ x v a c, 0 < c → (Rabs x - a) * c >= - kHalfTolerance → x * v >= 0 → - kHalfTolerance <= (Rabs (x + t * v) - a) * c).
  { intros x v a c Hc Hs Hv. assert (Rabs x <= Rabs (x + t * v)) by (unfold Rabs; repeat destruct (Rcase_abs _); nra). nra. }
  assert (T : ptop (along p d t) <= ptop (along p d t)) by lra. unfold ptop at 1 in T. set (k := ptop (along p d t)) in *. clearbody k. rewrite vmax_le in T. rewrite transform_along in T.
  unfold leaving in H. cbv zeta in H. rewrite !orb_true_iff, !andb_true_iff in H. unfold rgeb in H. rewrite !rleb_true in H.
  unfold safety_vector in *. cbn [vx vy vz vsub vabs] in *. unfold along in T. cbn [vx vy vz vadd vscale] in T.
  destruct H as [[[Hs Hv]|[Hs Hv]]|[Hs Hv]].
  - eapply Rle_trans; [|apply (proj1 T)]. apply A; try done; lra.
  - eapply Rle_trans; [|apply (proj1 (proj2 T))]. apply A; try done; lra.
  - eapply Rle_trans; [|apply (proj2 (proj2 T))]. assert (- kHalfTolerance <= (Rabs (vz (transform s p) + t * vz (transform s d)) - vz (pp_dim s)) * 1); [|lra].
    apply A; try done; lra.
Qed.
(** From outside, a ray that does not leave enters later. *)
Lemma not_leaving_in p d : leaving p d = false → ¬ closed (pp_dim s) (transform s p) → 0 < dist_in (pp_dim s) (transform s p) (transform s d).
Proof using G.
  intros H Hc. pose proof ctx_pos as Cx. pose proof cty_pos as Cy. pose proof kHalfTolerance_pos as Hh. pose proof kTiny_pos as Ht.
  set (q := transform s p) in *. set (v := transform s d) in *.
  assert (A : ∀ x w a c, 0 < c → (rgeb ((Rabs x - a) * c) (- kHalfTolerance) && rgeb (x * w) 0) = false → a < Rabs x → 0 < tin a x w).
  { intros x w a c Hc0 Hl Ha. destruct (rgeb_spec ((Rabs x - a) * c) (- kHalfTolerance)) as [_|K]; [|nra]. cbn [andb] in Hl. destruct (rgeb_spec (x * w) 0) as [|K]; [done|].
    unfold tin, rsign, nonzero. destruct (rltb_spec w 0) as [L|L].
    - assert (0 < x) by nra. rewrite Rabs_pos_eq in Ha by lra. apply Rmult_lt_reg_r with (- (w + - kTiny)); [lra|].
      replace ((- (-1 * a) - x) * (1 / (w + - kTiny)) * - (w + - kTiny)) with (x - a) by (field; lra). lra.
    - assert (x < 0) by nra. rewrite Rabs_left in Ha by lra. apply Rmult_lt_0_compat; [lra|]. apply Rdiv_lt_0_compat; lra. }
  unfold leaving in H. cbv zeta in H. fold q v in H. rewrite !orb_false_iff in H. destruct H as ((Hx & Hy) & Hz). unfold safety_vector in Hx, Hy, Hz. cbn [vx vy vz vsub vabs] in Hx, Hy, Hz.
  assert (Hz' : rgeb ((Rabs (vz q) - vz (pp_dim s)) * 1) (- kHalfTolerance) && rgeb (vz q * vz v) 0 = false) by (rewrite Rmult_1_r; done).
  assert (M : dist_in (pp_dim s) q v <= dist_in (pp_dim s) q v) by lra. unfold dist_in in M at 1. rewrite vmax_le in M. cbn [vx vy vz] in M.
  destruct (Rle_dec (Rabs (vx q)) dx) as [Bx|Bx]; [destruct (Rle_dec (Rabs (vy q)) dy) as [By|By]; [destruct (Rle_dec (Rabs (vz q)) dz) as [Bz|Bz]|]|].
  - exfalso. apply Hc. unfold closed, in_box, centred, vneg. cbn [bmin bmax vscale vx vy vz]. apply abs_le in Bx, By, Bz. fold dx dy dz. lra.
  - eapply Rlt_le_trans; [|apply (proj2 (proj2 M))]. eapply A; [|exact Hz'|fold dz; lra]. lra.
  - eapply Rlt_le_trans; [|apply (proj1 (proj2 M))]. eapply A; [|exact Hy|fold dy; lra]. lra.
  - eapply Rlt_le_trans; [|apply (proj1 M)]. eapply A; [|exact Hx|fold dx; lra]. lra.
Qed.
End Good.
