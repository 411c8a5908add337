(** Paraboloids: entering. *)
From Coq Require Import Reals Lra Lia Bool ZArith Psatz.
From stdpp Require Import base list option numbers tactics.
From Verif Require Import Real3 AABBModel BoxModel BoxProofs PlanesModel PlanesProofs ConeSpec ConeProofs EllTubeModel EllTubeSpec EllTubeProofs EllTubeProofs2 EllTubeProofs3 TubeProofs ParabModel ParabSpec ParabProofs ParabProofs2.
Import stdpp.list.
Local Open Scope R_scope.

Section Enter.
Variables L H Z : R.
Hypothesis HL : 0 <= L.
Hypothesis HH : L < H.
Hypothesis HZ : 0 < Z.
Let t := mk_parab L H Z.
Let A := steep L H Z.
Variables p d : v3.
Hypothesis Hd : vdot d d = 1.
Hypothesis Hflat : kAbsorb <= A * kTolerance.
Hypothesis Hdz : vz d = 0 ∨ kAbsorb <= Rabs (vz d).
Hypothesis Hdr : rho d = 0 ∨ kAbsorb <= A * (rho d * rho d).
Let q (u : R) : v3 := along p d u.
Let a := pb_qa t d.
Let b := pb_qb t p d.
Let c := pb_qc t p.
Let diff (x : v3) := rho x * rho x - bowl_at L H Z (vz x).
Let f (u : R) := a * (u * u) - 2 * b * u + c.
(** Rays that come down to the surface do not start within a tolerance of it. *)
Hypothesis Hskin : 0 < b → ¬ (- kTolerance < diff p < kTolerance).
Lemma f_bowl u : bowl L H Z (q u) ↔ f u <= 0.
Proof using HL HH HZ. apply bowl_iff; done. Qed.
Lemma root_big : 0 < b → 0 < c → 0 <= b * b - a * c → kAbsorb <= b.
Proof using HL HH HZ Hd Hflat Hdr Hskin.
  intros B C D. pose proof (A_pos L H Z HL HH HZ) as HA. fold A in HA. pose proof (kA) as KA. pose proof (c_eq L H Z HL HH HZ p) as CE. change (c = A * diff p) in CE.
  assert (DP : kTolerance <= diff p). { assert (0 < diff p) by (apply Rmult_lt_reg_l with A; [done|]; rewrite Rmult_0_r; rewrite <- CE; done). destruct (Rle_lt_dec kTolerance (diff p)) as [|G]; [done|]. exfalso. apply (Hskin B). pose proof kTolerance_pos. lra. }
  assert (CB : kAbsorb <= c). { rewrite CE. assert (A * kTolerance <= A * diff p) by (apply Rmult_le_compat_l; lra). lra. }
  pose proof (a_eq L H Z HL HH HZ d) as AE. fold t a A in AE. destruct Hdr as [E|E].
  - destruct (vertical L H Z HL HH HZ p d Hd E) as (_ & BE & V & _). fold t b in BE. assert (kAbsorb <= 1 / 2) by (unfold kAbsorb; lra). destruct V as [V|V]; rewrite V in BE; lra.
  - assert (kAbsorb * kAbsorb <= a * c) by (apply Rmult_le_compat; lra). apply sq_le_le; lra.
Qed.
Lemma side_in_spec off dist : let r := pb_side_in t p d off dist in
  (∃ s, r = s + off ∧ 0 < s ∧ parab_solid L H Z (q s) ∧ ∀ u, 0 <= u → f u <= 0 → s <= u) ∨
  (r = dist ∧ ((Z < vz p ∧ rho p * rho p < H * H) ∨ c <= 0 ∨ ∀ u, 0 <= u → f u <= 0 → ∃ s, 0 < s <= u ∧ f s = 0 ∧ Z < Rabs (vz (q s)))).
Proof using HL HH HZ Hd Hflat Hdr Hskin.
  unfold pb_side_in. change (pb_dz t) with Z. change (pb_rhi2 t) with (H * H). rewrite rho_sqr. fold a b c. unfold pb_qd. fold a b c. pose proof (a_nonneg L H Z HL HH HZ d) as A0. fold t a in A0.
  destruct (rgtb_spec (vz p) Z) as [G1|G1]; [destruct (rltb_spec (rho p * rho p) (H * H)) as [G2|G2]|]; cbn [andb]; [right; split; [done|left; lra]| |].
  all: destruct (Rle_lt_dec c 0) as [C|C].
  1,3: assert (DIST : ∀ x, x = (if rleb b 0 then (b - R_sqrt.sqrt (b * b - a * c)) / nz a else c / nz (b + R_sqrt.sqrt (b * b - a * c))) → x <= 0) by
    (intros x ->; pose proof (sqrt_pos (b * b - a * c)) as S0; destruct (rleb_spec b 0) as [B|B];
     [pose proof (nz_pos a A0) as N; assert (0 < / nz a) by (by apply Rinv_0_lt_compat); unfold Rdiv; nra
     |assert (N : 0 < nz (b + R_sqrt.sqrt (b * b - a * c))) by (apply nz_pos; lra); assert (0 < / nz (b + R_sqrt.sqrt (b * b - a * c))) by (by apply Rinv_0_lt_compat); unfold Rdiv; nra]);
    right; split; [|right; by left]; destruct (rltb_spec (b * b - a * c) 0); [done|]; match goal with |- context [rgtb ?x 0] => specialize (DIST x eq_refl); destruct (rgtb_spec x 0); [lra|] end; by rewrite andb_false_r.
  all: assert (NOB : b <= 0 ∨ b * b - a * c < 0 → ∀ u, 0 <= u → f u <= 0 → False) by (intros N u U F; destruct (side_first a b c u A0 C U F) as (? & ? & _); lra).
  all: destruct (rltb_spec (b * b - a * c) 0) as [D|D]; [right; split; [done|]; right; right; intros u U F; destruct (NOB (or_intror D) u U F)|].
  all: assert (D' : 0 <= b * b - a * c) by lra; destruct (rleb_spec b 0) as [B|B].
  1,3: pose proof (nz_pos a A0) as N; pose proof (sqrt_pos (b * b - a * c)) as S0; assert (0 < / nz a) by (by apply Rinv_0_lt_compat); assert (X : (b - R_sqrt.sqrt (b * b - a * c)) / nz a <= 0) by (unfold Rdiv; nra); destruct (rgtb_spec ((b - R_sqrt.sqrt (b * b - a * c)) / nz a) 0); [lra|]; rewrite andb_false_r; right; split; [done|]; right; right; intros u U F; destruct (NOB (or_introl B) u U F).
  all: assert (B' : 0 < b) by lra; pose proof (root_big B' C D') as RB; pose proof (sqrt_pos (b * b - a * c)) as S0; rewrite nz_big by (rewrite Rabs_pos_eq; lra); destruct (side_zero a b c C B' D') as [SP SZ]; set (s := c / (b + R_sqrt.sqrt (b * b - a * c))) in *; pose proof (z_along p d s) as ZA; fold (q s) in ZA; rewrite <- ZA; destruct (rgtb_spec s 0); [|lra]; rewrite andb_true_r.
  all: assert (FST : ∀ u, 0 <= u → f u <= 0 → s <= u) by (intros u U F; by destruct (side_first a b c u A0 C U F) as (_ & _ & ?)).
  all: destruct (rleb_spec (Rabs (vz (along p d s))) Z) as [ZS|ZS]; [left; exists s; split; [done|]; split; [done|]; split; [split; [done|]; apply f_bowl; unfold f; lra|done]|].
  all: right; split; [done|]; right; right; intros u U F; exists s; split; [split; [done|by apply FST]|]; split; [unfold f; lra|by apply Rnot_le_lt].
Qed.
End Enter.

Section Whole.
Variables L H Z inf : R.
Hypothesis HL : 0 <= L.
Hypothesis HH : L < H.
Hypothesis HZ : 0 < Z.
Let t := mk_parab L H Z.
Let A := steep L H Z.
Variables point d : v3.
Hypothesis Hd : vdot d d = 1.
Hypothesis Hflat : kAbsorb <= A * kTolerance.
Hypothesis Hdz : vz d = 0 ∨ kAbsorb <= Rabs (vz d).
Hypothesis Hdr : rho d = 0 ∨ kAbsorb <= A * (rho d * rho d).
Hypothesis Hout : ¬ parab_solid L H Z point.
Let solid := parab_solid L H Z.
Let off := pb_offset t point d.
Let p := vadd point (vscale off d).
Let diff (x : v3) := rho x * rho x - bowl_at L H Z (vz x).
Lemma solid_mag x : solid x → vmag x <= 2 * Rmax H Z.
Proof using HL HH HZ.
  intros [Sz Sb]. pose proof (bowl_range L H Z HL HH HZ _ Sz) as B. unfold bowl in Sb. rewrite <- rho_sqr in Sb. unfold pb_r2 in Sb. apply abs_le in Sz. pose proof (Rmax_l H Z) as M1. pose proof (Rmax_r H Z) as M2. set (M := Rmax H Z) in *.
  assert (0 <= vmag x) by (unfold vmag; apply sqrt_pos). apply sq_le_le; [lra|]. unfold vmag. rewrite sqrt_sqrt by (unfold vdot; nra). unfold vdot. assert (vz x * vz x <= M * M) by nra. assert (H * H <= M * M) by nra. nra.
Qed.
Lemma offset_clear : 0 <= off ∧ ∀ u, 0 <= u <= off → ¬ solid (along point d u).
Proof using HL HH HZ Hd Hout.
  assert (O : off = 0 ∨ ∃ M, Rmax H Z <= M ∧ 0 < M ∧ 32 * (3 / 2 * M) < vmag point ∧ off = vmag point - 2 * (3 / 2 * M)).
  { unfold off, pb_offset. change (pb_dx t) with (Rmax H L). change (pb_dz t) with Z. rewrite (Rmax_left H L) by lra. destruct (rgtb_spec (vdot point point) (1024 * (3 / 2 * Rmax H Z) * (3 / 2 * Rmax H Z))) as [G|G]; [|by left]. destruct (rltb_spec (vdot d point) 0); [|by left]. right. exists (Rmax H Z). pose proof (Rmax_r H Z). split; [lra|]. split; [lra|]. split; [|done].
    assert (V : 0 <= vdot point point) by (unfold vdot; nra). assert (M0 : 0 <= vmag point) by (unfold vmag; apply sqrt_pos). apply Rnot_le_lt. intros N. assert (E : vmag point * vmag point = vdot point point) by (unfold vmag; by apply sqrt_sqrt). assert (vmag point * vmag point <= (32 * (3 / 2 * Rmax H Z)) * (32 * (3 / 2 * Rmax H Z))) by (apply Rmult_le_compat; lra). lra. }
  destruct O as [O|(M & M1 & M2 & M3 & O)]; rewrite O.
  - split; [lra|]. intros u Hu. replace u with 0 by lra. by rewrite <- (v3_eq point (along point d 0)) by (unfold along; cbn; ring).
  - split; [lra|]. intros u Hu S. apply solid_mag in S. destruct (along_mag point d u Hd) as [_ G]. rewrite Rabs_pos_eq in G by lra. lra.
Qed.
Lemma along_moved u : along point d (u + off) = along p d u.
Proof using. apply v3_eq; unfold p, along; cbn; ring. Qed.
Lemma start_out : ¬ solid p.
Proof using HL HH HZ Hd Hout. destruct offset_clear as [O1 O2]. replace p with (along point d off) by (apply v3_eq; unfold p, along; cbn; ring). apply O2. lra. Qed.
Definition found (D : R) : Prop := (0 < D ∧ solid (along point d D) ∧ ∀ u, 0 <= u < D → ¬ solid (along point d u)).
Definition missed : Prop := ∀ u, 0 <= u → ¬ solid (along point d u).
Lemma found_from s : 0 < s → solid (along p d s) → (∀ u, 0 <= u < s → ¬ solid (along p d u)) → found (s + off).
Proof using HL HH HZ Hd Hout.
  intros S0 S1 S2. destruct offset_clear as [O1 O2]. split; [lra|]. split; [by rewrite along_moved|]. intros u Hu. destruct (Rle_lt_dec u off) as [G|G]; [apply O2; lra|]. replace u with ((u - off) + off) by ring. rewrite along_moved. apply S2. lra.
Qed.
Lemma missed_from : (∀ u, 0 <= u → ¬ solid (along p d u)) → missed.
Proof using HL HH HZ Hd Hout.
  intros S. destruct offset_clear as [O1 O2]. intros u Hu. destruct (Rle_lt_dec u off) as [G|G]; [apply O2; lra|]. replace u with ((u - off) + off) by ring. rewrite along_moved. apply S. lra.
Qed.
Definition skin_in : Prop := (Rabs (vz point - Z) < kTolerance ∧ rho point * rho point < H * H + kHalfTolerance ∧ vz d < 0) ∨ (Rabs (vz point + Z) < kTolerance ∧ rho point * rho point < L * L + kHalfTolerance ∧ 0 < vz d) ∨
  (- kTolerance < diff p < kTolerance ∧ vdot d (pb_gradient t p) < 0).
Lemma to_in_spec : let D := pb_to_in inf t point d in (D = 0 ∧ skin_in) ∨ found D ∨ (D = inf ∧ missed).
Proof using HL HH HZ Hd Hflat Hdz Hdr Hout.
  pose proof start_out as PO. pose proof (A_pos L H Z HL HH HZ) as HA. fold A in HA. pose proof kTolerance_pos as T. assert (T2 : 0 < kHalfTolerance < kTolerance) by (unfold kHalfTolerance; lra). pose proof kA as KA.
  set (a := pb_qa t d). set (b := pb_qb t p d). set (c := pb_qc t p).
  assert (ZA : ∀ u, vz (along p d u) = vz p + u * vz d) by (intros; unfold along; cbn; ring).
  assert (SB : ∀ u, bowl L H Z (along p d u) ↔ a * (u * u) - 2 * b * u + c <= 0) by (intros; by apply bowl_iff).
  assert (BA : ∀ z, z = Z → bowl_at L H Z z = H * H) by (intros ? ->; by apply bowl_top). assert (BB : ∀ z, z = - Z → bowl_at L H Z z = L * L) by (intros ? ->; by apply bowl_bottom).
  assert (CE : c = A * diff p) by (by apply c_eq). assert (GB : vdot d (pb_gradient t p) = - b / A) by (by apply gradient_b). assert (A0 : 0 <= a) by (by apply a_nonneg).
  unfold pb_to_in. fold off p. change (pb_dz t) with Z. change (pb_rhi2 t) with (H * H). change (pb_rlo2 t) with (L * L). assert (DE : pb_diff t p = diff p) by (by apply diff_eq). rewrite DE. cbv zeta.
  destruct (rgtb (Rabs (vz p)) Z && rgeb (vz p * vz d) 0) eqn:AW.
  { right. right. split; [done|]. apply missed_from. rewrite andb_true_iff in AW. destruct AW as [W1 W2]. destruct (rgtb_spec (Rabs (vz p)) Z) as [W1'|]; [|done]. destruct (rgeb_spec (vz p * vz d) 0) as [W2'|]; [|done]. clear W1 W2. intros u Hu [S _]. rewrite ZA in S. clear - W1' W2' S Hu HZ.
    assert (Q : vz p * vz p <= (vz p + u * vz d) * (vz p + u * vz d)) by (pose proof (Rle_0_sqr (u * vz d)) as Q; unfold Rsqr in Q; assert (0 <= u * (vz p * vz d)) by (apply Rmult_le_pos; lra); lra). apply Rsqr_le_abs_0 in Q. lra. }
  destruct (rltb (Rabs (vz p)) (Z - kTolerance) && rltb (diff p) (- kTolerance)) eqn:IN.
  { exfalso. rewrite andb_true_iff in IN. destruct IN as [I1 I2]. destruct (rltb_spec (Rabs (vz p)) (Z - kTolerance)) as [I1'|]; [|done]. destruct (rltb_spec (diff p) (- kTolerance)) as [I2'|]; [|done]. apply PO. unfold diff in I2'. split; [lra|unfold bowl; lra]. }
  clear IN. destruct (_ || _) eqn:OZ.
  { left. split; [done|]. unfold skin_in, pb_on_z in *. change (pb_dz t) with Z in OZ. change (pb_rhi2 t) with (H * H) in OZ. change (pb_rlo2 t) with (L * L) in OZ. rewrite rho_sqr, orb_true_iff, !andb_true_iff in OZ. destruct OZ as [[[O1 O2] O3]|[[O1 O2] O3]].
    - left. destruct (rltb_spec (Rabs (vz point - Z)) kTolerance); [|done]. destruct (rltb_spec (vz d) 0); [|done]. destruct (rltb_spec (rho point * rho point) (H * H + kHalfTolerance)); done.
    - right. left. destruct (rltb_spec (Rabs (vz point + Z)) kTolerance); [|done]. destruct (rgtb_spec (vz d) 0); [|done]. destruct (rltb_spec (rho point * rho point) (L * L + kHalfTolerance)); done. }
  clear OZ. destruct (rgtb (diff p) _ && _ && _) eqn:OS.
  { left. split; [done|]. unfold skin_in. rewrite !andb_true_iff in OS. destruct OS as [[O1 O2] O3]. right. right. destruct (rgtb_spec (diff p) (- kTolerance)); [|done]. destruct (rltb_spec (diff p) kTolerance); [|done]. destruct (rltb_spec (vdot d (pb_gradient t p)) 0); [|done]. split; [lra|done]. }
  assert (SK : 0 < b → ¬ (- kTolerance < diff p < kTolerance)).
  { intros B K. destruct (rgtb_spec (diff p) (- kTolerance)) as [|N]; [|lra]. destruct (rltb_spec (diff p) kTolerance) as [|N]; [|lra]. destruct (rltb_spec (vdot d (pb_gradient t p)) 0) as [|N]; [done|]. apply N. rewrite GB. assert (0 < b / A) by (by apply Rdiv_lt_0_compat). unfold Rdiv in *. lra. }
  clear OS GB. right.
  assert (SIDE : ∀ dist, let r := pb_side_in t p d off dist in
    (∃ s, r = s + off ∧ 0 < s ∧ parab_solid L H Z (along p d s) ∧ ∀ u, 0 <= u → a * (u * u) - 2 * b * u + c <= 0 → s <= u) ∨
    (r = dist ∧ ((Z < vz p ∧ rho p * rho p < H * H) ∨ c <= 0 ∨ ∀ u, 0 <= u → a * (u * u) - 2 * b * u + c <= 0 → ∃ s, 0 < s <= u ∧ a * (s * s) - 2 * b * s + c = 0 ∧ Z < Rabs (vz (along p d s))))) by (intros dist; by apply side_in_spec).
  (* what the side gives is the place of entry *)
  assert (HIT : ∀ s, 0 < s → parab_solid L H Z (along p d s) → (∀ u, 0 <= u → a * (u * u) - 2 * b * u + c <= 0 → s <= u) → found (s + off)).
  { intros s S0 S1 S2. apply found_from; [done..|]. intros u Hu [_ S]. apply SB in S. apply S2 in S; lra. }
  (* points between the lids *)
  assert (MID : Rabs (vz p) <= Z → found (pb_side_in t p d off inf) ∨ pb_side_in t p d off inf = inf ∧ missed).
  { intros PZ. destruct (SIDE inf) as [(s & E & S0 & S1 & S2)|[E K]]; rewrite E; [left; by apply HIT|]. right. split; [done|]. apply missed_from. intros u Hu [Sz Sb]. apply SB in Sb. assert (C : 0 < c). { apply Rnot_le_lt. intros C. apply PO. split; [done|]. unfold bowl. apply Rmult_le_reg_l with A; [done|]. rewrite CE in C. unfold diff in C. lra. }
    destruct K as [K|[K|K]]; [apply abs_le in PZ; lra|lra|]. destruct (K u Hu Sb) as (s & S0 & S1 & S2). rewrite ZA in *. apply abs_le in PZ, Sz. apply Rlt_not_le in S2. apply S2. apply Rabs_le. assert (0 <= s / u <= 1) by (split; [apply Rmult_le_pos; [lra|]; left; apply Rinv_0_lt_compat; lra|apply Rmult_le_reg_r with u; [lra|]; replace (s / u * u) with s by (field; lra); lra]).
    replace (vz p + s * vz d) with ((1 - s / u) * vz p + s / u * (vz p + u * vz d)) by (field; lra). clear - PZ Sz H0. nra. }
  destruct (rltb_spec (Rabs (vz p)) Z) as [G|G]; [apply MID; lra|]. destruct (Req_dec (Rabs (vz p)) Z) as [E|NE].
  { assert (G1 : rltb (vz p) (- Z) = false) by (destruct (rltb_spec (vz p) (- Z)); [rewrite Rabs_left in E; lra|done]). assert (G2 : rgtb (vz p) Z = false) by (destruct (rgtb_spec (vz p) Z); [rewrite Rabs_pos_eq in E; lra|done]). rewrite G1, G2. cbn [andb]. apply MID. lra. }
  assert (FAR : Z < Rabs (vz p)) by lra. destruct (rgtb_spec (Rabs (vz p)) Z) as [_|]; [|lra]. cbn [andb] in AW. destruct (rgeb_spec (vz p * vz d) 0) as [|TW]; [done|]. clear AW. assert (TW' : vz p * vz d < 0) by lra. clear TW.
  assert (NZ : vz d ≠ 0) by (intros Z0; rewrite Z0 in TW'; lra). assert (NB : nz (vz d) = vz d) by (apply nz_big; destruct Hdz; [done|done]). rewrite NB.
  (* the lid first: [e] is its height, [m] its radius squared *)
  set (e := if rltb (vz p) 0 then - Z else Z). set (w := (e - vz p) / vz d). assert (EW : vz (along p d w) = e) by (rewrite ZA; unfold w; field; done).
  assert (W0 : 0 < w). { unfold w, e. destruct (rltb_spec (vz p) 0) as [S|S]. - rewrite Rabs_left in FAR by lra. apply Rdiv_lt_0_compat; [lra|]. clear - TW' S. nra. - rewrite Rabs_pos_eq in FAR by lra. replace ((Z - vz p) / vz d) with ((vz p - Z) / - vz d) by (field; done). apply Rdiv_lt_0_compat; [lra|]. assert (0 < vz p) by lra. clear - TW' H0. nra. }
  assert (BEF : ∀ u, 0 <= u < w → ¬ solid (along p d u)).
  { intros u Hu [S _]. rewrite ZA in S. apply abs_le in S. assert (U : u * vz d = (e - vz p) * (u / w)) by (unfold w; field; split; [done|]; intros X; unfold w in W0; rewrite X in W0; unfold Rdiv in W0; rewrite Rmult_0_l in W0; lra). assert (UW : 0 <= u / w < 1) by (split; [apply Rmult_le_pos; [lra|]; left; by apply Rinv_0_lt_compat|apply Rmult_lt_reg_r with w; [done|]; replace (u / w * w) with u by (field; lra); lra]). rewrite U in S. unfold e in *. set (k := u / w) in *. clear - S UW FAR HZ. destruct (rltb_spec (vz p) 0) as [G|G]; [rewrite Rabs_left in FAR by lra|rewrite Rabs_pos_eq in FAR by lra]; nra. }
  assert (LID : bowl L H Z (along p d w) → found (w + off)).
  { intros B. apply found_from; [done| |done]. split; [|done]. rewrite EW. unfold e. destruct (rltb (vz p) 0); [rewrite Rabs_left by lra|rewrite Rabs_pos_eq by lra]; lra. }
  assert (MISS : ¬ bowl L H Z (along p d w) → found (pb_side_in t p d off inf) ∨ pb_side_in t p d off inf = inf ∧ missed).
  { intros NBW. destruct (SIDE inf) as [(s & E & S0 & S1 & S2)|[E K]]; rewrite E; [left; by apply HIT|]. right. split; [done|]. apply missed_from. intros u Hu S. assert (UW : w <= u) by (apply Rnot_lt_le; intros X; by apply (BEF u)). destruct S as [Sz Sb]. apply SB in Sb. assert (NF : ¬ a * (w * w) - 2 * b * w + c <= 0) by (by rewrite <- SB).
    assert (C : 0 < c). { apply Rnot_le_lt. intros C. apply NF. apply (quad_between a b c 0 w u); [done|lra|lra|done]. }
    destruct K as [[K1 K2]|[K|K]]; [|lra|].
    - assert (D0 : diff p < 0). { unfold diff. pose proof (bowl_slope L H Z HL HH HZ (vz p) Z) as BS. fold A in BS. rewrite (BA Z eq_refl) in BS. assert (0 < bowl_at L H Z (vz p) - H * H) by (apply Rmult_lt_reg_l with A; [done|]; lra). lra. } rewrite CE in C. assert (0 < A * - diff p) by (apply Rmult_lt_0_compat; lra). lra.
    - destruct (K u Hu Sb) as (s & S0 & S1 & S2). assert (WS : w < s) by (apply Rnot_le_lt; intros X; apply NF; apply (quad_between a b c s w u); [done|lra|lra|done]). apply Rlt_not_le in S2. apply S2. assert (Ae : Rabs e <= Z) by (unfold e; destruct (rltb (vz p) 0); [rewrite Rabs_left by lra|rewrite Rabs_pos_eq by lra]; lra). rewrite <- EW in Ae.
      rewrite ZA in *. apply abs_le in Ae, Sz. apply Rabs_le. set (k := (s - w) / (u - w)). assert (0 <= k <= 1) by (unfold k; split; [apply Rmult_le_pos; [lra|]; left; apply Rinv_0_lt_compat; lra|apply Rmult_le_reg_r with (u - w); [lra|]; replace ((s - w) / (u - w) * (u - w)) with (s - w) by (field; lra); lra]).
      replace (vz p + s * vz d) with ((1 - k) * (vz p + w * vz d) + k * (vz p + u * vz d)) by (unfold k; field; lra). clearbody k. clear - Ae Sz H0. nra. }
  destruct (rltb_spec (vz p) 0) as [S|S].
  - (* from below *) rewrite Rabs_left in FAR by lra. destruct (rltb_spec (vz p) (- Z)) as [_|]; [|lra]. destruct (rgtb_spec (vz d) 0) as [_|N]; [|exfalso; apply N; clear - TW' S; nra]. destruct (rgtb_spec (vz p) Z) as [|_]; [lra|]. cbn [andb]. fold e in w. assert (WE : (- Z - vz p) / vz d = w) by (unfold w, e; reflexivity). rewrite WE, rho_sqr.
    assert (BW : bowl L H Z (along p d w) ↔ rho (along p d w) * rho (along p d w) <= L * L) by (unfold bowl; rewrite EW; by rewrite BB). destruct (rleb_spec (rho (along p d w) * rho (along p d w)) (L * L)) as [R2|R2]; [left; apply LID; by rewrite BW|apply MISS; by rewrite BW].
  - (* from above *) rewrite Rabs_pos_eq in FAR by lra. destruct (rltb_spec (vz p) (- Z)) as [|_]; [lra|]. destruct (rgtb_spec (vz p) Z) as [_|]; [|lra]. destruct (rltb_spec (vz d) 0) as [_|N]; [|exfalso; apply N; assert (0 < vz p) by lra; clear - TW' H0; nra]. cbn [andb]. assert (WE : (Z - vz p) / vz d = w) by (unfold w, e; reflexivity). rewrite WE, rho_sqr.
    assert (BW : bowl L H Z (along p d w) ↔ rho (along p d w) * rho (along p d w) <= H * H) by (unfold bowl; rewrite EW; by rewrite BA). destruct (rleb_spec (rho (along p d w) * rho (along p d w)) (H * H)) as [R2|R2].
    + assert (FW : found (w + off)) by (apply LID; by rewrite BW). destruct (rltb_spec (rho (along p d w) * rho (along p d w)) (H * H)) as [R3|R3]; [by left|]. left. destruct (SIDE (w + off)) as [(s & E & S0 & S1 & S2)|[E K]]; rewrite E; [by apply HIT|done].
    + destruct (rltb_spec (rho (along p d w) * rho (along p d w)) (H * H)) as [R3|R3]; [lra|]. apply MISS. by rewrite BW.
Qed.
End Whole.
