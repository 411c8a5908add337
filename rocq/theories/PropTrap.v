(** C82: trapezoids.  See properties.jsonl. *)
From Coq Require Import Reals Lra Lia Bool Psatz.
From stdpp Require Import base list option numbers tactics.
From Verif Require Import Real3 BoxModel AABBModel PlanesModel PlanesSpec PlanesProofs PlanesProofs2 PlanesProofs3 PropShell TrapModel TrapSpec TrapProofs TrapProofs2.
Import stdpp.list.
Local Open Scope R_scope.

Section C82.
(** Any proper trapezoid, with the planes that MakePlanes gives it: the constructors' results (PropTrap2). *)
Variables (inf dz th ph dy1 dx1 dx2 ta1 dy2 dx3 dx4 ta2 tc ts : R) (pls : list plane) (ars : list R).
Hypothesis P : proper dz tc ts dy1 dx1 dx2 ta1 dy2 dx3 dx4 ta2.
Let t := make_planes (Trap dz th ph dy1 dx1 dx2 ta1 dy2 dx3 dx4 ta2 tc ts pls ars).
Let S := hull (eight dz tc ts dy1 dx1 dx2 ta1 dy2 dx3 dx4 ta2).
Let W := walls dz tc ts dy1 dx1 dx2 ta1 dy2 dx3 dx4.
Let F := W ++ lids dz.
Lemma planes_t : tz_planes t = side_planes dz tc ts dy1 dx1 dx2 ta1 dy2 dx3 dx4.
Proof using P. by apply (planes_made _ _ _ _ _ _ _ _ _ _ _ P). Qed.
Lemma six_t : six_of t = six dz tc ts dy1 dx1 dx2 ta1 dy2 dx3 dx4.
Proof using P. unfold six_of. by rewrite planes_t. Qed.
Lemma faces_t : halves (six_of t) = F.
Proof using P. rewrite six_t. apply walls_eq. Qed.
Lemma sides_t : halves (tz_planes t) = W.
Proof using P. rewrite planes_t. apply walls_eq. Qed.
Lemma unit_t : unit_normals (halves (six_of t)).
Proof using P. rewrite six_t. apply six_unit. Qed.
Lemma short_t : short_normals (halves (six_of t)).
Proof using P. apply unit_short, unit_t. Qed.
Lemma solid_t p : S p ↔ cut (halves (six_of t)) p.
Proof using P. rewrite six_t. by apply solid_iff. Qed.
Lemma solid_top p : S p ↔ top_height t p <= 0.
Proof using P. rewrite solid_t, cut_iff. symmetry. apply top_le. Qed.
Lemma dz_t : tz_dz t = dz.
Proof using. done. Qed.
(** The hull of the eight corners is the intersection of six half spaces. *)
Theorem C82_solid p : (S p ↔ cut F p) ∧ unit_normals F.
Proof using P. unfold F, W. rewrite <- (proj1 (walls_eq _ _ _ _ _ _ _ _ _ _)). split; [by apply solid_iff|apply six_unit]. Qed.
(** Contains: the hull of the eight corners. *)
Theorem C82_contains p : trap_contains t p = true ↔ S p.
Proof using P. rewrite contains_top. symmetry. apply solid_top. Qed.
(** Inside: more than half a tolerance of room, farther than half a tolerance from a wall, or neither. *)
Theorem C82_inside p : match trap_inside t p with
  | kInside => ∃ e, kHalfTolerance < e ∧ deep_in S p e
  | kOutside => ∃ e, kHalfTolerance < e ∧ clear_of S p e
  | kSurface => (S p → escapes S p kHalfTolerance) ∧ ∀ n k, In (n, k) F → height n k p <= kHalfTolerance
  end.
Proof using P.
  pose proof kHalfTolerance_pos as Hh. rewrite inside_top. destruct (top_spec t p) as (A & pl & Hi & B). destruct (rltb_spec (top_height t p) (- kHalfTolerance)) as [H|H].
  - exists (- top_height t p). split; [lra|]. intros q Hq. apply solid_t. revert q Hq. apply (deep_of_dist _ _ _ short_t). intros q Hq. specialize (A _ Hq). lra.
  - destruct (rgtb_spec (top_height t p) kHalfTolerance) as [K|K].
    + exists (top_height t p). split; [done|]. intros q Hq. apply solid_t in Hq. revert q Hq. apply (clear_of_dist _ _ _ pl short_t Hi). lra.
    + split.
      * intros _ e He. destruct (escapes_of_dist (six_of t) p kHalfTolerance pl unit_t Hi) with (e := e) as (q & Hq & Hn); [lra|lra|done|].
        exists q. split; [done|]. by rewrite solid_t.
      * intros n k Hn. rewrite <- faces_t in Hn. apply in_halves in Hn. specialize (A _ Hn). rewrite <- height_dist in A. cbn [pl_n pl_d] in A. lra.
Qed.
(** SafetyToOut: a ball of that radius is inside, no larger one is; negative exactly outside. *)
Theorem C82_safety_to_out p : let s := trap_safety_out t p in (0 <= s ↔ S p) ∧ deep_in S p s ∧ (S p → escapes S p s).
Proof using P.
  cbv zeta. rewrite safety_out_top. rewrite solid_top. destruct (top_spec t p) as (A & pl & Hi & B). split; [lra|]. split.
  - intros q Hq. apply solid_t. revert q Hq. apply (deep_of_dist _ _ _ short_t). intros q Hq. specialize (A _ Hq). lra.
  - intros H e He. destruct (escapes_of_dist (six_of t) p (- top_height t p) pl unit_t Hi) with (e := e) as (q & Hq & Hn); [lra|lra|done|].
    exists q. split; [done|]. by rewrite solid_t.
Qed.
(** SafetyToIn: the solid is at least that far away; positive exactly outside, and minus SafetyToOut. *)
Theorem C82_safety_to_in p : let s := trap_safety_in t p in (0 < s ↔ ¬ S p) ∧ clear_of S p s ∧ s = - trap_safety_out t p.
Proof using P.
  cbv zeta. rewrite safety_out_top. rewrite solid_top. destruct (top_spec t p) as (A & pl & Hi & B). change (trap_safety_in t p) with (top_height t p). split; [lra|]. split; [|lra].
  intros q Hq. apply solid_t in Hq. revert q Hq. apply (clear_of_dist _ _ _ pl short_t Hi). lra.
Qed.
(** DistanceToOut from points of the solid: where the ray leaves it, if the direction is not nearly along a wall. *)
Theorem C82_to_out p d : 0 <= inf → S p → steady kAbsorb F d → leaves inf S p d (trap_to_out inf t p d).
Proof using P.
  intros H0 Hp Hs. pose proof kHalfTolerance_pos as Hh. rewrite <- faces_t in Hs. apply solid_t in Hp.
  rewrite to_out_six; [|done|apply cut_six in Hp as [_ Hz]; lra]. destruct (shell_out_leaves inf (six_of t) p d Hp Hs) as [(A & B & C & D)|(A & B)].
  - left. split; [done|]. split; [done|]. split; intros u Hu; rewrite solid_t; auto.
  - right. split; [done|]. intros u Hu. apply solid_t, B, Hu.
Qed.
(** Points that Inside calls outside get -1 or less. *)
Theorem C82_to_out_outside p d : 0 <= inf → trap_inside t p = kOutside → trap_to_out inf t p d <= -1.
Proof using P.
  intros H0. rewrite inside_top. pose proof kHalfTolerance_pos as Hh. destruct (rltb_spec (top_height t p) (- kHalfTolerance)); [done|].
  destruct (rgtb_spec (top_height t p) kHalfTolerance) as [H|]; [|done]. intros _. destruct (Rle_dec (Rabs (vz p)) (dz + kHalfTolerance)) as [Hz|Hz].
  - rewrite to_out_six by done. apply shell_out_wrong. destruct (top_spec t p) as (A & pl & Hi & B). exists pl. split; [done|lra].
  - unfold trap_to_out. rewrite dz_t. destruct (rgtb_spec (Rabs (vz p)) (dz + kHalfTolerance)); lra.
Qed.
(** DistanceToIn, the point off all walls and the direction not nearly along one: where the ray enters, infinity when it
    does not; below zero from points of the solid. *)
Theorem C82_to_in p d : aloof F kHalfTolerance p → steady kAbsorb F d → vz d ≠ 0 → dz + Rabs (vz p) < inf * Rabs (vz d) →
  enters inf S p d (trap_to_in inf t p d) ∨ (trap_to_in inf t p d < 0 ∧ S p).
Proof using P.
  intros Ha Hs Hd Hb. rewrite <- faces_t in Ha, Hs. destruct (to_in_six inf t p d) as [H|[H1 H2]]; try done.
  - intros [n k] Hi. specialize (Ha _ _ (proj2 (in_halves _ _ _) Hi)). unfold settled. rewrite <- height_dist. done.
  - left. destruct H as [[E H]|(A & B & C & D)]; [left|right].
    + split; [done|]. intros u Hu. rewrite solid_t. auto.
    + split; [done|]. split; [done|]. split; [by rewrite solid_t|]. intros u Hu. rewrite solid_t. auto.
  - right. split; [done|]. by rewrite solid_t.
Qed.
(** Level rays: kTiny stands for the zero; all that is between the walls must be nearer than its inverse allows. *)
Theorem C82_to_in_level p d : aloof F kHalfTolerance p → steady kAbsorb W d → vz d = 0 → (dz + Rabs (vz p)) / kTiny < inf →
  (∀ u, cut W (along p d u) → u < kHalfTolerance / kTiny) →
  enters inf S p d (trap_to_in inf t p d) ∨ (trap_to_in inf t p d < 0 ∧ S p).
Proof using P.
  intros Ha Hs Hd Hb Hf. rewrite <- faces_t in Ha. rewrite <- sides_t in Hs, Hf. destruct (to_in_level inf t p d) as [H|[H1 H2]]; try done.
  - intros [n k] Hi. specialize (Ha _ _ (proj2 (in_halves _ _ _) Hi)). unfold settled. rewrite <- height_dist. done.
  - rewrite dz_t. apply P.
  - left. destruct H as [[E H]|(A & B & C & D)]; [left|right].
    + split; [done|]. intros u Hu. rewrite solid_t. auto.
    + split; [done|]. split; [done|]. split; [by rewrite solid_t|]. intros u Hu. rewrite solid_t. auto.
  - right. split; [done|]. by rewrite solid_t.
Qed.
(** Normal: one wall above all other faces by half a tolerance; valid within a thousand tolerances of it. *)
Theorem C82_normal_wall p n k : (∀ m j, In (m, j) F → - inf < height m j p) → In (n, k) W →
  (∀ m j, In (m, j) F → (m, j) ≠ (n, k) → height m j p <= height n k p - kHalfTolerance) →
  trap_normal inf t p = Some (n, rleb (Rabs (height n k p)) (1000 * kTolerance)).
Proof using P.
  intros Hinf Hi Hd. pose proof kHalfTolerance_pos as Hh. unfold trap_normal. rewrite planes_t. unfold W in Hi. rewrite <- (proj2 (walls_eq _ _ _ _ _ _ _ _ _ _)) in Hi. apply in_halves in Hi.
  assert (Eh : height n k p = pl_dist (Plane n k) p) by exact (height_dist (Plane n k) p). rewrite Eh in Hd |- *. clear Eh.
  assert (Hs : ∀ q, In q (side_planes dz tc ts dy1 dx1 dx2 ta1 dy2 dx3 dx4) → In (pl_n q, pl_d q) F).
  { intros [m j] Hq. unfold F. apply in_or_app. left. unfold W. rewrite <- (proj2 (walls_eq _ _ _ _ _ _ _ _ _ _)). by apply in_halves. }
  unfold side_planes in *. rewrite C48_shell_normal with (pl := Plane n k); [| | done | |].
  - cbn [mbind option_bind]. rewrite dz_t, rsign_mul.
    assert (Hz : Rabs (vz p) - dz <= pl_dist (Plane n k) p - kHalfTolerance).
    { assert (Hu : ∀ s, s = 1 ∨ s = -1 → s * vz p - dz <= pl_dist (Plane n k) p - kHalfTolerance).
      { intros s Hs1. assert (Hl : In (V3 0 0 s, - dz) F) by (unfold F; apply in_or_app; right; destruct Hs1 as [-> | ->]; cbn; auto).
        specialize (Hd _ _ Hl). unfold height in Hd at 1. cbn [vx vy vz] in Hd. 
        assert (s * vz p - dz = 0 * vx p + 0 * vy p + s * vz p + - dz) as -> by ring. apply Hd.
        intros [= E _]. destruct (v_pos dz tc ts dy1 dx1 dx2 ta1 dy2 dx3 dx4) as (A0 & A1 & A2 & A3). apply vmag_pos in A0, A1, A2, A3.
        destruct Hi as [Hi|[Hi|[Hi|[Hi|[]]]]]; injection Hi; intros _ Hn; rewrite <- Hn in E; apply (f_equal vx) in E as Ex; apply (f_equal vy) in E as Ey;
          unfold unitize, vscale in Ex, Ey; cbn [vx vy] in Ex, Ey; symmetry in Ex, Ey.
        - apply Rmult_integral in Ey as [Ey|Ey]; [|lra]. assert (0 < 1 / vmag (V3 0 (-1) (ts - (dy2 - dy1) / (2 * dz)))) by (apply Rdiv_lt_0_compat; [lra|exact A0]). lra.
        - apply Rmult_integral in Ey as [Ey|Ey]; [|lra]. match type of Ey with 1 / ?v = 0 => assert (0 < 1 / v) by (apply Rdiv_lt_0_compat; [lra|exact A1]) end. lra.
        - apply Rmult_integral in Ex as [Ey'|Ey']; [|lra]. match type of Ey' with 1 / ?v = 0 => assert (0 < 1 / v) by (apply Rdiv_lt_0_compat; [lra|exact A2]) end. lra.
        - apply Rmult_integral in Ex as [Ey'|Ey']; [|lra]. match type of Ey' with 1 / ?v = 0 => assert (0 < 1 / v) by (apply Rdiv_lt_0_compat; [lra|exact A3]) end. lra. }
      destruct (Rle_dec 0 (vz p)); [rewrite Rabs_pos_eq by lra; specialize (Hu 1)|rewrite Rabs_left by lra; specialize (Hu (-1))]; lra. }
    set (safz := Rabs (vz p) - dz) in *. set (s := pl_dist (Plane n k) p) in *. destruct (rltb_spec (Rabs (safz - s)) kHalfTolerance) as [G|_].
    { rewrite Rabs_left in G by lra. lra. }
    cbn [andb]. destruct (rgtb_spec safz s); [lra|]. cbn [andb pl_n].
    assert (Hn1 : vdot n n = 1). { apply (six_unit dz tc ts dy1 dx1 dx2 ta1 dy2 dx3 dx4 n k). apply in_halves. unfold six. apply in_or_app. left. exact Hi. }
    rewrite Hn1. destruct (rgtb_spec 1 1); [lra|]. done.
  - intros q Hq. rewrite <- height_dist. apply Hinf, Hs, Hq.
  - intros q Hq Hne. rewrite <- height_dist. apply Hd; [by apply Hs|]. intros [= E1 E2]. apply Hne. destruct q; cbn in *. congruence.
  - apply six_nodup.
Qed.
(** Normal at a lid: within half a tolerance under it or above it, and all walls lower by half a tolerance. *)
Theorem C82_normal_lid p : (∀ m j, In (m, j) W → - inf < height m j p) → let h := Rabs (vz p) - dz in - kHalfTolerance <= h →
  (∀ m j, In (m, j) W → height m j p <= h - kHalfTolerance) →
  trap_normal inf t p = Some (V3 0 0 (if Rle_dec 0 (vz p) then 1 else -1), rleb (Rabs h) (1000 * kTolerance)).
Proof using P.
  intros Hinf h Hh0 Hd. pose proof kHalfTolerance_pos as Hh. unfold trap_normal. rewrite planes_t. rewrite <- sides_t, planes_t in Hinf, Hd.
  unfold side_planes in *. edestruct C48_shell_normal_safety as (s & n & E & A & pl & Hi & B); [|rewrite E].
  { intros pl Hi. rewrite <- height_dist. apply Hinf. apply in_halves. destruct pl. exact Hi. }
  cbn [mbind option_bind]. rewrite dz_t, rsign_mul. fold h.
  assert (s <= h - kHalfTolerance). { rewrite B, <- height_dist. apply Hd. apply in_halves. destruct pl. exact Hi. }
  destruct (rltb_spec (Rabs (h - s)) kHalfTolerance) as [G|_]; [rewrite Rabs_pos_eq in G by lra; lra|]. cbn [andb].
  destruct (rgtb_spec h s); [|lra]. destruct (rgeb_spec h (- kHalfTolerance)); [|lra]. cbn [andb].
  assert (Hv : V3 0 0 (rsign (vz p)) = V3 0 0 (if Rle_dec 0 (vz p) then 1 else -1)).
  { f_equal. destruct (rsign_cases (vz p)) as [[? ->]|[? ->]]; destruct (Rle_dec 0 (vz p)); lra. }
  rewrite Hv. match goal with |- context [rgtb ?x 1] => destruct (rgtb_spec x 1) as [G|_]; [|done] end. exfalso. unfold vdot in G. cbn [vx vy vz] in G. destruct (Rle_dec 0 (vz p)); lra.
Qed.
(** Below that the nearest wall is answered instead of the lid, and called valid by the height of the lid. *)
Theorem C82_normal_buried p n k : (∀ m j, In (m, j) W → - inf < height m j p) → let h := Rabs (vz p) - dz in h < - kHalfTolerance → In (n, k) W →
  (∀ m j, In (m, j) W → (m, j) ≠ (n, k) → height m j p <= height n k p - kHalfTolerance) → height n k p < h →
  trap_normal inf t p = Some (n, rleb (Rabs h) (1000 * kTolerance)).
Proof using P.
  intros Hinf h Hh0 Hi Hd Hl. pose proof kHalfTolerance_pos as Hh. unfold trap_normal. rewrite planes_t. rewrite <- sides_t, planes_t in Hinf, Hd, Hi. apply in_halves in Hi.
  assert (Eh : height n k p = pl_dist (Plane n k) p) by exact (height_dist (Plane n k) p). rewrite Eh in Hd, Hl. clear Eh.
  unfold side_planes in *. rewrite C48_shell_normal with (pl := Plane n k); [| | done | |].
  - cbn [mbind option_bind]. rewrite dz_t, rsign_mul. fold h. destruct (rgeb_spec h (- kHalfTolerance)); [lra|]. rewrite !andb_false_r.
    destruct (rgtb_spec h (pl_dist (Plane n k) p)); [|lra]. cbn [pl_n].
    assert (Hn1 : vdot n n = 1). { apply (six_unit dz tc ts dy1 dx1 dx2 ta1 dy2 dx3 dx4 n k). apply in_halves. unfold six. apply in_or_app. left. exact Hi. }
    rewrite Hn1. destruct (rgtb_spec 1 1); [lra|]. done.
  - intros [m j] Hq. rewrite <- height_dist. apply Hinf. apply in_halves, Hq.
  - intros [m j] Hq Hne. rewrite <- height_dist. apply Hd; [apply in_halves, Hq|]. intros [= E1 E2]. apply Hne. by rewrite E1, E2.
  - apply six_nodup.
Qed.
End C82.
Print Assumptions C82_solid.
Print Assumptions C82_contains.
Print Assumptions C82_inside.
Print Assumptions C82_safety_to_out.
Print Assumptions C82_safety_to_in.
Print Assumptions C82_to_out.
Print Assumptions C82_to_out_outside.
Print Assumptions C82_to_in.
Print Assumptions C82_to_in_level.
Print Assumptions C82_normal_wall.
Print Assumptions C82_normal_lid.
Print Assumptions C82_normal_buried.
(** A trapezoid with four slanted walls; a ray down through its middle meets the hypotheses. *)
Lemma vmag_is v r : 0 <= r → vdot v v = r * r → vmag v = r.
Proof. intros H E. apply Rsqr_inj; [apply vmag_nonneg|done|]. unfold Rsqr. by rewrite vmag_sqr, E. Qed.
Lemma cons_eq {A} (a b : A) l l' : a = b → l = l' → a :: l = b :: l'.
Proof. by intros -> ->. Qed.
Example slanted : proper 2 0 0 1 5 (13/2) 0 4 (11/4) (35/4) 0 ∧
  let F := walls 2 0 0 1 5 (13/2) 0 4 (11/4) (35/4) ++ lids 2 in
  aloof F kHalfTolerance (V3 0 0 5) ∧ steady kAbsorb F (V3 0 0 (-1)) ∧ aloof F kHalfTolerance (V3 8 1 1) ∧
  F = [(V3 0 (-4/5) (-3/5), -2); (V3 0 (4/5) (-3/5), -2); (V3 (-4/5) (-3/5) 0, -23/5); (V3 (4/5) (-3/5) 0, -23/5); (V3 0 0 1, -2); (V3 0 0 (-1), -2)].
Proof.
  assert (Hp : proper 2 0 0 1 5 (13/2) 0 4 (11/4) (35/4) 0).
  { unfold proper, coplanar, triple, low_corner, high_corner, vdot, vcross, vsub. cbn [vx vy vz]. repeat split; lra. }
  split; [done|]. cbv zeta.
  assert (E : walls 2 0 0 1 5 (13/2) 0 4 (11/4) (35/4) ++ lids 2 =
    [(V3 0 (-4/5) (-3/5), -2); (V3 0 (4/5) (-3/5), -2); (V3 (-4/5) (-3/5) 0, -23/5); (V3 (4/5) (-3/5) 0, -23/5); (V3 0 0 1, -2); (V3 0 0 (-1), -2)]).
  { assert (W : ∀ v e n k, vdot v v = 5/4 * (5/4) → n = vscale (4/5) v → k = - (e * (4/5)) → wall v e = (n, k)).
    { intros v e n k Hv -> ->. unfold wall. rewrite (vmag_is v (5/4)) by (done || lra). f_equal; [f_equal; lra|lra]. }
    unfold walls, lids. cbv zeta. cbn [app]. repeat apply cons_eq; try reflexivity.
    all: first [apply W; [unfold vdot; cbn [vx vy vz]; lra|apply v3_eq; cbn [vscale vx vy vz]; lra|lra] | f_equal; lra]. }
  rewrite E. clear E. assert (Ha : kAbsorb <= 3/5).
  { unfold kAbsorb. apply Rle_trans with (/ 2); [|lra]. apply Rinv_le_contravar; [lra|]. replace 2 with (2 ^ 1) at 1 by ring. apply Rle_pow; [lra|lia]. }
  assert (Hh : 0 < kHalfTolerance < 1/5) by (unfold kHalfTolerance, kTolerance; lra).
  split; [|split; [|split; [|done]]].
  - intros n k Hi. cbn in Hi. destruct_or? Hi; try done; injection Hi; intros <- <-; unfold height; cbn [vx vy vz]; lra.
  - intros n k Hi. cbn in Hi. destruct_or? Hi; try done; injection Hi; intros _ <-; unfold vdot; cbn [vx vy vz];
      first [left; lra|right; rewrite Rabs_pos_eq by lra; lra|right; rewrite Rabs_left by lra; lra].
  - intros n k Hi. cbn in Hi. destruct_or? Hi; try done; injection Hi; intros <- <-; unfold height; cbn [vx vy vz]; lra.
Qed.
(** A cube of half length 10: a tolerance under the lid the normal of a wall five away comes back, as valid. *)
Theorem C82_normal_buried_refuted inf : 100 < inf → let t := mk_trap_box 10 10 10 in let p := V3 5 0 (10 - kTolerance) in
  trap_normal inf t p = Some (V3 1 0 0, true) ∧ deep_in (λ q, trap_contains t q = true) p kTolerance ∧ ∃ q, vdist p q <= kTolerance ∧ vz q = 10.
Proof.
  intros Hi t p. assert (Ht : 0 < kTolerance < 1/10) by (unfold kTolerance; lra). assert (Eh : kHalfTolerance = kTolerance / 2) by (unfold kHalfTolerance; lra).
  assert (Hp : proper 10 0 0 10 10 10 0 10 10 10 0).
  { unfold proper, coplanar, triple, low_corner, high_corner, vdot, vcross, vsub. cbn [vx vy vz]. repeat split; lra. }
  assert (Et : t = make_planes (Trap 10 0 0 10 10 10 0 10 10 10 0 0 0 zero_planes [])).
  { unfold t, mk_trap_box, trap_struct. rewrite tan_0, !Rmult_0_l. done. }
  assert (E : walls 10 0 0 10 10 10 0 10 10 10 = [(V3 0 (-1) 0, -10); (V3 0 1 0, -10); (V3 (-1) 0 0, -10); (V3 1 0 0, -10)]).
  { assert (W : ∀ v e n k, vdot v v = 1 * 1 → n = v → k = - e → wall v e = (n, k)).
    { intros v e n k Hv -> ->. unfold wall. rewrite (vmag_is v 1) by (done || lra). f_equal; [apply v3_eq; cbn [vscale vx vy vz]; lra|lra]. }
    unfold walls. cbv zeta. repeat apply cons_eq; try reflexivity; (apply W; [unfold vdot; cbn [vx vy vz]; lra|apply v3_eq; cbn [vx vy vz]; lra|lra]). }
  assert (Hz : Rabs (vz p) - 10 = - kTolerance) by (unfold p; cbn [vz]; rewrite Rabs_pos_eq; lra).
  split; [|split].
  - rewrite Et. rewrite (C82_normal_buried inf 10 0 0 10 10 10 0 10 10 10 0 0 0 zero_planes [] Hp p (V3 1 0 0) (-10)).
    + rewrite Hz. do 2 f_equal. destruct (rleb_spec (Rabs (- kTolerance)) (1000 * kTolerance)) as [|N]; [done|]. exfalso. apply N. rewrite Rabs_Ropp, Rabs_pos_eq; lra.
    + rewrite E. intros m j Hm. cbn in Hm. destruct_or? Hm; try done; injection Hm; intros <- <-; unfold height, p; cbn [vx vy vz]; lra.
    + rewrite Hz. lra.
    + rewrite E. cbn. tauto.
    + rewrite E. intros m j Hm Hne. cbn in Hm. destruct_or? Hm; try done; injection Hm; intros <- <-; try (by exfalso; apply Hne); unfold height, p; cbn [vx vy vz]; lra.
    + rewrite Hz. unfold height, p. cbn [vx vy vz]. lra.
  - assert (Es : kTolerance = trap_safety_out t p).
    { symmetry. rewrite Et, safety_out_top. enough (top_height (make_planes (Trap 10 0 0 10 10 10 0 10 10 10 0 0 0 zero_planes [])) p = - kTolerance) by lra.
      assert (A : ∀ r, - kTolerance <= r → top_height (make_planes (Trap 10 0 0 10 10 10 0 10 10 10 0 0 0 zero_planes [])) p <= r).
      { intros r Hr. apply top_le. intros [m j] Hq. apply in_halves in Hq. rewrite (faces_t 10 0 0 10 10 10 0 10 10 10 0 0 0 zero_planes [] Hp), E in Hq.
        change (pl_dist (Plane m j) p) with (pl_dist (Plane m j) p). rewrite <- height_dist. cbn [pl_n pl_d]. cbn in Hq.
        destruct_or? Hq; try done; injection Hq; intros <- <-; unfold height, p; cbn [vx vy vz]; lra. }
      destruct (Rle_dec (- kTolerance) (top_height (make_planes (Trap 10 0 0 10 10 10 0 10 10 10 0 0 0 zero_planes [])) p)) as [|N]; [specialize (A (- kTolerance)); lra|].
      exfalso. apply N. destruct (top_spec (make_planes (Trap 10 0 0 10 10 10 0 10 10 10 0 0 0 zero_planes [])) p) as [B _].
      apply (all_six (make_planes (Trap 10 0 0 10 10 10 0 10 10 10 0 0 0 zero_planes [])) (λ x, x <= top_height (make_planes (Trap 10 0 0 10 10 10 0 10 10 10 0 0 0 zero_planes [])) p)) in B as (_ & B & _).
      change (10 - kTolerance - 10 <= top_height (make_planes (Trap 10 0 0 10 10 10 0 10 10 10 0 0 0 zero_planes [])) p) in B. lra. }
    intros q Hq. rewrite Es in Hq. rewrite Et in Hq |- *. apply (C82_contains _ _ _ _ _ _ _ _ _ _ _ _ _ _ _ Hp).
    apply (C82_safety_to_out 10 0 0 10 10 10 0 10 10 10 0 0 0 zero_planes [] Hp p). done.
  - exists (V3 5 0 10). split; [|done]. unfold vdist. rewrite (vmag_is _ kTolerance); [lra|lra|]. unfold p, vdot, vsub. cbn [vx vy vz]. ring.
Qed.
Print Assumptions C82_normal_buried_refuted.
