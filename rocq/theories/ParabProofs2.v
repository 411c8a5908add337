(** Paraboloids: ray distances. *)
From Coq Require Import Reals Lra Lia Bool ZArith Psatz.
From stdpp Require Import base list option numbers tactics.
From Verif Require Import Real3 AABBModel BoxModel BoxProofs PlanesModel PlanesProofs ConeSpec ConeProofs EllTubeModel EllTubeSpec EllTubeProofs EllTubeProofs2 EllTubeProofs3 TubeProofs ParabModel ParabSpec ParabProofs.
Import stdpp.list.
Local Open Scope R_scope.

Lemma sq_le_le x y : 0 <= y → x * x <= y * y → x <= y.
Proof. intros. nra. Qed.
Lemma sq_one x : 0 <= x → x * x = 1 → x = 1.
Proof. intros. nra. Qed.
Lemma nz_pos x : 0 <= x → 0 < nz x.
Proof.
  intros Hx. unfold nz. destruct (rgeb_spec (Rabs x) kAbsorb) as [G|G].
  - rewrite Rabs_pos_eq in G by done. unfold kAbsorb in G. assert (0 < / 2 ^ 46) by (apply Rinv_0_lt_compat, pow_lt; lra). lra.
  - unfold nonzero. pose proof kTiny_pos. destruct (rltb_spec x 0); lra.
Qed.
Lemma side_first a b c u : 0 <= a → 0 < c → 0 <= u → a * (u * u) - 2 * b * u + c <= 0 → 0 < b ∧ 0 <= b * b - a * c ∧ c / (b + R_sqrt.sqrt (b * b - a * c)) <= u.
Proof.
  intros Ha Hc Hu F. assert (Hb : 0 < b). { apply Rnot_le_lt. intros N. assert (0 <= a * (u * u)) by (apply Rmult_le_pos; nra). nra. }
  assert (Q : (a * u - b) * (a * u - b) <= b * b - a * c). { assert (a * (a * (u * u) - 2 * b * u + c) <= 0) by nra. nra. }
  assert (D : 0 <= b * b - a * c) by (pose proof (Rle_0_sqr (a * u - b)) as S; unfold Rsqr in S; lra).
  split; [done|]. split; [done|]. pose proof (sqrt_pos (b * b - a * c)) as S0. assert (SS : R_sqrt.sqrt (b * b - a * c) * R_sqrt.sqrt (b * b - a * c) = b * b - a * c) by (by apply sqrt_sqrt). set (r := R_sqrt.sqrt (b * b - a * c)) in *.
  assert (K : b - a * u <= r) by (clear - Q SS S0; nra). apply Rmult_le_reg_r with (b + r); [lra|]. replace (c / (b + r) * (b + r)) with c by (field; lra). clear Q SS D. assert (u * (b - a * u) <= u * r) by (by apply Rmult_le_compat_l). nra.
Qed.
Lemma side_zero a b c : 0 < c → 0 < b → 0 <= b * b - a * c → let s := c / (b + R_sqrt.sqrt (b * b - a * c)) in 0 < s ∧ a * (s * s) - 2 * b * s + c = 0.
Proof.
  intros Hc Hb D s. pose proof (sqrt_pos (b * b - a * c)) as S0. assert (SS : R_sqrt.sqrt (b * b - a * c) * R_sqrt.sqrt (b * b - a * c) = b * b - a * c) by (by apply sqrt_sqrt). set (r := R_sqrt.sqrt (b * b - a * c)) in *.
  assert (E : s * (b + r) = c) by (unfold s; field; lra). split; [unfold s; apply Rdiv_lt_0_compat; lra|]. clearbody r s.
  apply Rmult_eq_reg_r with ((b + r) * (b + r)); [|nra]. replace ((a * (s * s) - 2 * b * s + c) * ((b + r) * (b + r))) with (a * ((s * (b + r)) * (s * (b + r))) - 2 * b * (s * (b + r)) * (b + r) + c * ((b + r) * (b + r))) by ring. rewrite E. replace (a * (c * c) - 2 * b * c * (b + r) + c * ((b + r) * (b + r))) with (c * (a * c - b * b + r * r)) by ring. rewrite SS. ring.
Qed.
(** A parabola opening upwards that is not positive at two places is not positive between them. *)
Lemma quad_between a b c u v w : 0 <= a → u <= v <= w → a * (u * u) - 2 * b * u + c <= 0 → a * (w * w) - 2 * b * w + c <= 0 → a * (v * v) - 2 * b * v + c <= 0.
Proof.
  intros Ha [H1 H2] Fu Fw. destruct (Rle_lt_dec w u) as [G|G]; [replace v with u by lra; done|].
  apply Rmult_le_reg_l with (w - u); [lra|]. rewrite Rmult_0_r.
  replace ((w - u) * (a * (v * v) - 2 * b * v + c)) with ((w - v) * (a * (u * u) - 2 * b * u + c) + (v - u) * (a * (w * w) - 2 * b * w + c) - a * ((w - u) * ((w - v) * (v - u)))) by ring.
  assert (0 <= a * ((w - u) * ((w - v) * (v - u)))) by (apply Rmult_le_pos; [done|]; apply Rmult_le_pos; [lra|]; apply Rmult_le_pos; lra).
  assert ((w - v) * (a * (u * u) - 2 * b * u + c) <= 0) by (apply Rmult_le_0_r || nra). assert ((v - u) * (a * (w * w) - 2 * b * w + c) <= 0) by nra. lra.
Qed.

Section Rays.
Variables L H Z inf : R.
Hypothesis HL : 0 <= L.
Hypothesis HH : L < H.
Hypothesis HZ : 0 < Z.
Let t := mk_parab L H Z.
Let A := steep L H Z.
Variables p d : v3.
Hypothesis Hd : vdot d d = 1.
(** Not so flat that rounding hides a tolerance, and directions without components below rounding. *)
Hypothesis Hflat : kAbsorb <= A * kTolerance.
Hypothesis Hdz : vz d = 0 ∨ kAbsorb <= Rabs (vz d).
Hypothesis Hdr : rho d = 0 ∨ kAbsorb <= A * (rho d * rho d).
Let q (u : R) : v3 := along p d u.
Let a := pb_qa t d.
Let b := pb_qb t p d.
Let c := pb_qc t p.
Let diff (x : v3) := rho x * rho x - bowl_at L H Z (vz x).
Lemma kA : 0 < kAbsorb.
Proof using. clear. unfold kAbsorb. apply Rinv_0_lt_compat, pow_lt. lra. Qed.
Lemma a_eq : a = A * (rho d * rho d).
Proof using HL HH HZ. unfold a, pb_qa, t. rewrite A_eq, rho_sqr by done. done. Qed.
Lemma a_nonneg : 0 <= a.
Proof using HL HH HZ. rewrite a_eq. pose proof (A_pos L H Z HL HH HZ). apply Rmult_le_pos; [unfold A; lra|]. apply Rle_0_sqr. Qed.
Lemma a_pos : rho d ≠ 0 → 0 < a.
Proof using HL HH HZ. intros N. rewrite a_eq. pose proof (A_pos L H Z HL HH HZ) as HA. apply Rmult_lt_0_compat; [done|]. pose proof (rho_nonneg d). assert (0 < rho d) by lra. by apply Rmult_lt_0_compat. Qed.
Lemma c_eq : c = A * diff p.
Proof using HL HH HZ. unfold c, diff, A. rewrite <- value_eq by done. unfold pb_qc, pb_value. fold t. ring. Qed.
Lemma along_eq u : A * diff (q u) = a * (u * u) - 2 * b * u + c.
Proof using HL HH HZ.
  unfold diff, A. rewrite <- value_eq by done. unfold pb_value, a, b, c, pb_qa, pb_qb, pb_qc, pb_r2, q, along. cbn [vadd vscale vx vy vz]. fold t. field.
Qed.
Lemma bowl_iff u : bowl L H Z (q u) ↔ a * (u * u) - 2 * b * u + c <= 0.
Proof using HL HH HZ. rewrite <- along_eq. pose proof (A_pos L H Z HL HH HZ) as HA. fold A in HA. unfold bowl, diff. split; intros; nra. Qed.
Lemma gradient_b : vdot d (pb_gradient t p) = - b / A.
Proof using HL HH HZ.
  pose proof (A_pos L H Z HL HH HZ) as HA. pose proof (sq_less L H HL HH) as HQ. unfold b, pb_qb, pb_gradient, vdot, t. rewrite A_eq by done. cbn [vx vy vz]. fold A. apply Rmult_eq_reg_r with A; [|unfold A; lra]. replace (- (1 / 2 * vz d - A * (vx p * vx d + vy p * vy d)) / A * A) with (A * (vx p * vx d + vy p * vy d) - 1 / 2 * vz d) by (field; unfold A; lra).
  assert (E : A * pb_k1 (mk_parab L H Z) = 1) by (unfold A, steep, mk_parab; cbn [pb_k1]; field; lra). replace ((vx d * vx p + vy d * vy p + vz d * (- pb_k1 (mk_parab L H Z) * (1 / 2))) * A) with (A * (vx p * vx d + vy p * vy d) - 1 / 2 * vz d * (A * pb_k1 (mk_parab L H Z))) by field. rewrite E. ring.
Qed.
Lemma z_along u : vz (q u) = vz p + u * vz d.
Proof using. unfold q, along. cbn. ring. Qed.
Lemma vertical : rho d = 0 → a = 0 ∧ b = 1 / 2 * vz d ∧ (vz d = 1 ∨ vz d = -1) ∧ vx d = 0 ∧ vy d = 0.
Proof using HL HH HZ Hd.
  intros E. pose proof (r2_rho d) as R2. rewrite E in R2. assert (X : vx d = 0) by nra. assert (Y : vy d = 0) by nra. rewrite a_eq, E. split; [ring|]. unfold b, pb_qb. rewrite X, Y. split; [ring|]. split; [|done].
  unfold vdot in Hd. rewrite X, Y in Hd. assert ((vz d - 1) * (vz d + 1) = 0) by lra. destruct (Rmult_integral _ _ H0); [left|right]; lra.
Qed.

(** Leaving. *)
Hypothesis Hp : parab_solid L H Z p.
Definition skin_out : Prop := (Rabs (vz p - Z) < kTolerance ∧ 0 < vz d) ∨ (Rabs (vz p + Z) < kTolerance ∧ vz d < 0) ∨ (Rabs (diff p) < kTolerance ∧ 0 < vdot d (pb_gradient t p)).
Hypothesis Hlevel : vz d = 0 → 2 * H * kTiny <= Z - vz p.
Hypothesis Htall : 2 * Z * kTiny <= 1.
Hypothesis Htangent : vdot d (pb_gradient t p) = 0 → diff p <= - kTolerance.
Lemma to_out_spec : (pb_to_out inf t p d = 0 ∧ skin_out) ∨ leaves (parab_solid L H Z) p d (pb_to_out inf t p d).
Proof using HL HH HZ Hd Hflat Hdz Hdr Hp Hlevel Htall Htangent.
  pose proof Hp as [Pz Pb]. pose proof (A_pos L H Z HL HH HZ) as HA. fold A in HA. pose proof kTolerance_pos as T. assert (T2 : 0 < kHalfTolerance < kTolerance) by (unfold kHalfTolerance; lra). pose proof kA as KA. pose proof kTiny_pos as KT. pose proof a_nonneg as A0.
  assert (DP : diff p <= 0) by (unfold diff; unfold bowl in Pb; lra). assert (C0 : c <= 0) by (rewrite c_eq; clear - HA DP; nra).
  unfold pb_to_out. change (pb_dz t) with Z. unfold t. rewrite diff_eq by done. fold t. fold (diff p).
  destruct (rgtb_spec (Rabs (vz p)) (Z + kTolerance)) as [|_]; [lra|]. destruct (rgtb_spec (diff p) kHalfTolerance) as [|_]; [lra|].
  destruct (_ || _) eqn:OZ.
  { left. split; [done|]. unfold skin_out. unfold pb_on_z in OZ. change (pb_dz t) with Z in OZ. rewrite orb_true_iff, !andb_true_iff in OZ. destruct OZ as [[[O1 _] O2]|[[O1 _] O2]].
    - left. destruct (rltb_spec (Rabs (vz p - Z)) kTolerance); [|done]. destruct (rgtb_spec (vz d) 0); [|done]. done.
    - right. left. destruct (rltb_spec (Rabs (vz p + Z)) kTolerance); [|done]. destruct (rltb_spec (vz d) 0); [|done]. done. }
  destruct (rgtb (diff p) _ && _ && _) eqn:OS.
  { left. split; [done|]. unfold skin_out. rewrite !andb_true_iff in OS. destruct OS as [[O1 O2] O3]. right. right. destruct (rgtb_spec (diff p) (- kTolerance)); [|done]. destruct (rltb_spec (diff p) kTolerance); [|done]. destruct (rgtb_spec (vdot d (pb_gradient t p)) 0); [|done]. split; [apply Rabs_def1; lra|done]. }
  right. cbv zeta. fold b c. unfold pb_qd. fold a b c. assert (D2 : 0 <= b * b - a * c) by (clear - A0 C0; nra). destruct (rgeb_spec (b * b - a * c) 0) as [_|]; [|lra].
  assert (DEEP : b <= 0 → diff p <= - kTolerance).
  { intros B0. destruct (Req_dec b 0) as [BZ|BZ]; [apply Htangent; rewrite gradient_b, BZ; field; lra|].
    apply Rnot_lt_le. intros G. destruct (rgtb_spec (diff p) (- kTolerance)); [|lra]. destruct (rltb_spec (diff p) kTolerance); [|lra]. destruct (rgtb_spec (vdot d (pb_gradient t p)) 0) as [|N]; [done|]. apply N. rewrite gradient_b. apply Rdiv_lt_0_compat; lra. }
  clear OS OZ. pose proof (bowl_range L H Z HL HH HZ _ Pz) as BR. unfold bowl in Pb.
  set (dist := if rgtb b 0 then _ else _). set (dz := if rltb (vz d) 0 then _ else _).
  assert (ZW : vz d ≠ 0 → ∀ u, 0 <= u → (Rabs (vz (q u)) <= Z ↔ u <= dz)).
  { intros NZ u Hu. rewrite z_along, (z_out Z (vz p) (vz d) u Pz NZ Hu). replace dz with ((rcopysign Z (vz d) - vz p) / vz d); [done|]. unfold dz, rcopysign. rewrite (Rabs_pos_eq Z) by lra. rewrite nz_big by (destruct Hdz; [lra|done]). destruct (rltb (vz d) 0); field; done. }
  assert (RW : 0 < a → ∀ u, 0 <= u → (bowl L H Z (q u) ↔ u <= dist)).
  { intros PA u Hu. assert (AB : kAbsorb <= a). { destruct Hdr as [E|E]; [|by rewrite a_eq]. rewrite a_eq, E in PA. lra. } rewrite bowl_iff. replace (a * (u * u) - 2 * b * u + c) with (a * (u * u) + 2 * (- b) * u + c) by ring. rewrite quad_out by done. replace (- b * - b - a * c) with (b * b - a * c) by ring.
    unfold dist. destruct (rgtb_spec b 0) as [B|B].
    - rewrite nz_big by (rewrite Rabs_pos_eq; lra). replace ((b + R_sqrt.sqrt (b * b - a * c)) * (1 / a)) with ((R_sqrt.sqrt (b * b - a * c) - - b) / a) by (field; lra). set (s := R_sqrt.sqrt (b * b - a * c)). split; intros G.
      + apply Rmult_le_reg_l with a; [done|]. replace (a * ((s - - b) / a)) with (s - - b) by (field; lra). done.
      + apply (Rmult_le_compat_l a) in G; [|lra]. replace (a * ((s - - b) / a)) with (s - - b) in G by (field; lra). done.
    - assert (B0 : b <= 0) by lra. specialize (DEEP B0). assert (CC : c <= - (A * kTolerance)) by (rewrite c_eq; clear - HA DEEP; nra). assert (BIG : kAbsorb * kAbsorb <= b * b - a * c). { assert (kAbsorb * kAbsorb <= a * (A * kTolerance)) by (apply Rmult_le_compat; lra). assert (a * c <= a * (- (A * kTolerance))) by (apply Rmult_le_compat_l; lra). assert (0 <= b * b) by apply Rle_0_sqr. lra. }
      assert (SB : kAbsorb <= R_sqrt.sqrt (b * b - a * c)) by (rewrite <- (sqrt_square kAbsorb) by lra; by apply sqrt_le_1_alt). pose proof (quad_root a (- b) c PA C0) as QR. replace (- b * - b - a * c) with (b * b - a * c) in QR by ring. assert (0 < kAbsorb * kAbsorb) by (by apply Rmult_lt_0_compat). specialize (QR ltac:(lra) ltac:(lra)).
      set (s := R_sqrt.sqrt (b * b - a * c)) in *. rewrite nz_big by (rewrite Rabs_left; lra). replace (c / (b - s)) with (- c / (s + - b)) by (field; lra). rewrite QR. split; intros G.
      + apply Rmult_le_reg_l with a; [done|]. replace (a * ((s - - b) / a)) with (s - - b) by (field; lra). done.
      + apply (Rmult_le_compat_l a) in G; [|lra]. replace (a * ((s - - b) / a)) with (s - - b) in G by (field; lra). done. }
  assert (ALL : ∀ u, 0 <= u → (parab_solid L H Z (q u) ↔ u <= Rmin dist dz)).
  { intros u Hu. unfold parab_solid. destruct (Req_dec (vz d) 0) as [E|NZ].
    - (* level *) assert (NR : rho d ≠ 0) by (intros E'; destruct (vertical E') as (_ & _ & V & _); lra). pose proof (a_pos NR) as PA. rewrite (RW PA u Hu). rewrite min_ge. assert (QZ : vz (q u) = vz p) by (rewrite z_along, E; ring). rewrite QZ. split; [|tauto]. intros [_ G]. split; [done|].
      unfold dz. destruct (rltb_spec (vz d) 0); [lra|]. rewrite E, nz_small. specialize (Hlevel E). apply (RW PA u Hu) in G. unfold bowl in G. rewrite QZ in G.
      assert (RQ : rho (q u) <= H) by (apply sq_le_le; lra). assert (RP : rho p <= H) by (apply sq_le_le; lra).
      assert (U2 : u <= 2 * H). { assert (DD : rho d = 1) by (pose proof (r2_rho d) as R2; pose proof (rho_nonneg d); unfold vdot in Hd; rewrite E in Hd; apply sq_one; lra).
        assert (M1 : vmag (V3 (vx p) (vy p) 0) = rho p) by (unfold vmag, vdot, rho; cbn [vx vy vz]; f_equal; ring). assert (M2 : vmag (along (V3 (vx p) (vy p) 0) d u) = rho (q u)) by (unfold vmag, vdot, rho, q, along; cbn [vadd vscale vx vy vz]; f_equal; rewrite E; ring).
        destruct (along_mag (V3 (vx p) (vy p) 0) d u Hd) as [G1 _]. rewrite M1, M2, Rabs_pos_eq in G1 by done. lra. }
      apply Rmult_le_reg_r with kTiny; [done|]. replace ((Z - vz p) * (1 / kTiny) * kTiny) with (Z - vz p) by (field; lra). apply Rle_trans with (2 * H * kTiny); [|done]. apply Rmult_le_compat_r; lra.
    - rewrite (ZW NZ u Hu). destruct (Req_dec (rho d) 0) as [E|NR].
      + destruct (vertical E) as (AE & BE & V & _). rewrite bowl_iff, AE, BE. rewrite min_ge. unfold dist. rewrite AE. destruct V as [V|V]; rewrite ?BE, V.
        * destruct (rgtb_spec (1 / 2 * 1) 0) as [_|]; [|lra]. rewrite nz_small. replace (1 / 2 * 1 * (1 / 2 * 1) - 0 * c) with (1 / 2 * (1 / 2)) by ring. rewrite sqrt_square by lra. replace ((1 / 2 * 1 + 1 / 2) * (1 / kTiny)) with (1 / kTiny) by (field; lra). split; [|intros; split; [tauto|lra]]. intros [G _]. split; [|done]. apply (ZW NZ u Hu) in G. rewrite z_along, V in G. apply abs_le in G. apply abs_le in Pz. apply Rmult_le_reg_r with kTiny; [done|]. replace (1 / kTiny * kTiny) with 1 by (field; lra). apply Rle_trans with (2 * Z * kTiny); [|done]. apply Rmult_le_compat_r; lra.
        * destruct (rgtb_spec (1 / 2 * -1) 0) as [|_]; [lra|]. replace (1 / 2 * -1 * (1 / 2 * -1) - 0 * c) with (1 / 2 * (1 / 2)) by ring. rewrite sqrt_square by lra. replace (1 / 2 * -1 - 1 / 2) with (-1) by field. rewrite nz_big by (rewrite Rabs_left by lra; destruct Hdz as [|G]; [lra|]; rewrite V, Rabs_left in G by lra; lra). replace (c / -1) with (- c) by field. split; intros [? ?]; split; lra.
      + pose proof (a_pos NR) as PA. rewrite (RW PA u Hu), min_ge. tauto. }
  assert (Q0 : q 0 = p) by (apply v3_eq; unfold q, along; cbn; ring). assert (D0 : 0 <= Rmin dist dz) by (apply ALL; [lra|]; by rewrite Q0). split; [done|]. split.
  - intros u Hu. apply ALL; lra.
  - intros u Hu S. apply ALL in S; lra.
Qed.
End Rays.
