(** C82 continued: normals at the edges of the lids, and what the setters store.  See properties.jsonl. *)
From Coq Require Import Reals Lra Lia Bool Psatz.
From stdpp Require Import base list option numbers tactics.
From Verif Require Import Real3 BoxModel AABBModel PlanesModel PlanesSpec PlanesProofs PlanesProofs2 PlanesProofs3 PropShell TrapModel TrapSpec TrapProofs TrapProofs2 PropTrap.
Import stdpp.list.
Local Open Scope R_scope.

Section C82.
Variables (inf dz th ph dy1 dx1 dx2 ta1 dy2 dx3 dx4 ta2 tc ts : R) (pls : list plane) (ars : list R).
Hypothesis P : proper dz tc ts dy1 dx1 dx2 ta1 dy2 dx3 dx4 ta2.
Let t := make_planes (Trap dz th ph dy1 dx1 dx2 ta1 dy2 dx3 dx4 ta2 tc ts pls ars).
Let W := walls dz tc ts dy1 dx1 dx2 ta1 dy2 dx3 dx4.
(** Where a lid is less than half a tolerance below the one highest wall the answer is the sum of both normals: of length one
    when the sum is longer than that, and as it is when the edge is sharper than 60 degrees. *)
Theorem C82_normal_edge p n k : (∀ m j, In (m, j) W → - inf < height m j p) → let h := Rabs (vz p) - dz in let g := height n k p in - kHalfTolerance <= h → In (n, k) W →
  (∀ m j, In (m, j) W → (m, j) ≠ (n, k) → height m j p <= g - kHalfTolerance) → h <= g → g - h < kHalfTolerance →
  let s := vadd n (V3 0 0 (if Rle_dec 0 (vz p) then 1 else -1)) in
  ∃ a, trap_normal inf t p = Some (a, rleb (Rabs g) (1000 * kTolerance)) ∧
    (vdot s s <= 1 → a = s) ∧ (1 < vdot s s → vdot a a = 1 ∧ ∃ l, 0 < l ∧ vscale l a = s).
Proof using P.
  intros Hinf h g Hh0 Hi Hd Hl Hg s. pose proof kHalfTolerance_pos as Hh. unfold trap_normal. pose proof (planes_t dz th ph dy1 dx1 dx2 ta1 dy2 dx3 dx4 ta2 tc ts pls ars P) as Ept. fold t in Ept. rewrite Ept.
  pose proof (sides_t dz th ph dy1 dx1 dx2 ta1 dy2 dx3 dx4 ta2 tc ts pls ars P) as Est. fold t W in Est. rewrite <- Est, Ept in Hinf, Hd, Hi. apply in_halves in Hi.
  assert (Eh : g = pl_dist (Plane n k) p) by exact (height_dist (Plane n k) p). clearbody g. subst g.
  unfold side_planes in *. rewrite C48_shell_normal with (pl := Plane n k); [| | done | |].
  - cbn [mbind option_bind]. change (tz_dz t) with dz. rewrite rsign_mul. fold h. cbn [pl_n].
    destruct (rgeb_spec h (- kHalfTolerance)); [|lra]. destruct (rltb_spec (Rabs (h - pl_dist (Plane n k) p)) kHalfTolerance) as [|N]; cbn [andb]; [|exfalso; apply N; rewrite Rabs_left1; lra].
    destruct (rgtb_spec h (pl_dist (Plane n k) p)); [lra|]. cbn [andb].
    assert (Hv : vadd n (V3 0 0 (rsign (vz p))) = s).
    { unfold s. do 2 f_equal. destruct (rsign_cases (vz p)) as [[? ->]|[? ->]]; destruct (Rle_dec 0 (vz p)); lra. }
    rewrite Hv. destruct (rgtb_spec (vdot s s) 1) as [G|G].
    + exists (unitize s). split; [done|]. split; [lra|]. intros _. assert (Hm : 0 < vmag s).
      { destruct (vmag_nonneg s) as [|E]; [done|]. pose proof (vmag_sqr s) as Q. rewrite <- E in Q. lra. }
      unfold unitize. split; [|exists (vmag s); split; [done|]].
      * replace (vdot _ _) with (vdot s s / (vmag s * vmag s)) by (unfold vdot; cbn [vscale vx vy vz]; field; lra). rewrite vmag_sqr. field. lra.
      * apply v3_eq; cbn [vscale vx vy vz]; field; lra.
    + exists s. split; [done|]. split; [done|lra].
  - intros [m j] Hq. rewrite <- height_dist. apply Hinf. apply in_halves, Hq.
  - intros [m j] Hq Hne. rewrite <- height_dist. apply Hd; [apply in_halves, Hq|]. intros [= E1 E2]. apply Hne. by rewrite E1, E2.
  - apply six_nodup.
Qed.
End C82.
Print Assumptions C82_normal_edge.
(** What the setters store: the member named, and for the angles the two tangents and the planes of the new numbers. *)
Theorem C82_setter_members t v :
  let rest u := (tz_theta u, tz_phi u, tz_dy1 u, tz_dx2 u, tz_ta1 u, tz_dy2 u, tz_dx3 u, tz_dx4 u, tz_ta2 u, tz_tc u, tz_ts u, tz_planes u, tz_areas u) in
  (tz_dz (set_dz t v) = v ∧ tz_dx1 (set_dz t v) = tz_dx1 t ∧ rest (set_dz t v) = rest t) ∧
  (tz_dx1 (set_dx1 t v) = v ∧ tz_dz (set_dx1 t v) = tz_dz t ∧ rest (set_dx1 t v) = rest t) ∧
  let shape u := (tz_dz u, tz_dy1 u, tz_dx1 u, tz_dx2 u, tz_ta1 u, tz_dy2 u, tz_dx3 u, tz_dx4 u, tz_ta2 u) in
  (shape (set_theta t v) = shape t ∧ tz_theta (set_theta t v) = v ∧ tz_phi (set_theta t v) = tz_phi t ∧
    tz_tc (set_theta t v) = tan v * cos (tz_phi t) ∧ tz_ts (set_theta t v) = tan v * sin (tz_phi t) ∧
    make_planes (set_theta t v) = set_theta t v) ∧
  (shape (set_phi t v) = shape t ∧ tz_phi (set_phi t v) = v ∧ tz_theta (set_phi t v) = tz_theta t ∧
    tz_tc (set_phi t v) = tan (tz_theta t) * cos v ∧ tz_ts (set_phi t v) = tan (tz_theta t) * sin v ∧
    make_planes (set_phi t v) = set_phi t v).
Proof. repeat split. Qed.
Print Assumptions C82_setter_members.
(** The middle of the upper edge in x of a cube of half length 10: the diagonal. *)
Example cube_edge inf : 100 < inf → ∃ a, trap_normal inf (mk_trap_box 10 10 10) (V3 10 0 10) = Some (a, true) ∧ vdot a a = 1 ∧ ∃ l, 0 < l ∧ vscale l a = V3 1 0 1.
Proof.
  intros Hi. assert (Ht : 0 < kTolerance < 1/10) by (unfold kTolerance; lra). assert (Eh : kHalfTolerance = kTolerance / 2) by (unfold kHalfTolerance; lra).
  assert (Hp : proper 10 0 0 10 10 10 0 10 10 10 0).
  { unfold proper, coplanar, triple, low_corner, high_corner, vdot, vcross, vsub. cbn [vx vy vz]. repeat split; lra. }
  assert (Et : mk_trap_box 10 10 10 = make_planes (Trap 10 0 0 10 10 10 0 10 10 10 0 0 0 zero_planes [])).
  { unfold mk_trap_box, trap_struct. rewrite tan_0, !Rmult_0_l. done. }
  assert (E : walls 10 0 0 10 10 10 0 10 10 10 = [(V3 0 (-1) 0, -10); (V3 0 1 0, -10); (V3 (-1) 0 0, -10); (V3 1 0 0, -10)]).
  { assert (W : ∀ v e n k, vdot v v = 1 * 1 → n = v → k = - e → wall v e = (n, k)).
    { intros v e n k Hv -> ->. unfold wall. rewrite (vmag_is v 1) by (done || lra). f_equal; [apply v3_eq; cbn [vscale vx vy vz]; lra|lra]. }
    unfold walls. cbv zeta. repeat apply cons_eq; try reflexivity; (apply W; [unfold vdot; cbn [vx vy vz]; lra|apply v3_eq; cbn [vx vy vz]; lra|lra]). }
  set (p := V3 10 0 10). assert (Hz : Rabs (vz p) - 10 = 0) by (unfold p; cbn [vz]; rewrite Rabs_pos_eq; lra).
  assert (Hg : height (V3 1 0 0) (-10) p = 0) by (unfold height, p; cbn [vx vy vz]; lra).
  destruct (C82_normal_edge inf 10 0 0 10 10 10 0 10 10 10 0 0 0 zero_planes [] Hp p (V3 1 0 0) (-10)) as (a & Ha & _ & Hs).
  - rewrite E. intros m j Hm. cbn in Hm. destruct_or? Hm; try done; injection Hm; intros <- <-; unfold height, p; cbn [vx vy vz]; lra.
  - rewrite Hz. lra.
  - rewrite E. cbn. tauto.
  - rewrite E, Hg. intros m j Hm Hne. cbn in Hm. destruct_or? Hm; try done; injection Hm; intros <- <-; try (by exfalso; apply Hne); unfold height, p; cbn [vx vy vz]; lra.
  - rewrite Hz, Hg. lra.
  - rewrite Hz, Hg. lra.
  - exists a. rewrite Et, Ha, Hg. assert (Ev : vadd (V3 1 0 0) (V3 0 0 (if Rle_dec 0 (vz p) then 1 else -1)) = V3 1 0 1).
    { unfold p. cbn [vz]. destruct (Rle_dec 0 10); [|lra]. apply v3_eq; cbn [vadd vx vy vz]; lra. }
    rewrite Ev in Hs. split; [|apply Hs; unfold vdot; cbn [vx vy vz]; lra].
    do 2 f_equal. destruct (rleb_spec (Rabs 0) (1000 * kTolerance)) as [|N]; [done|]. exfalso. apply N. rewrite Rabs_R0. lra.
Qed.
