(** C89: elliptical cones: the lateral area as an integral, samples, mesh, normals. *)
From Coq Require Import Reals Lra Lia Bool ZArith Psatz.
From stdpp Require Import base list option numbers tactics.
From Verif Require Import Real3 AABBModel BoxModel BoxProofs PlanesModel PlanesProofs TetModel ConeSpec ConeProofs EllTubeModel EllTubeSpec EllTubeProofs EllTubeProofs4 EllipsoidProofs4 TubeProofs PolyconeSpec EllConeModel EllConeSpec EllConeProofs PropEllCone.
Import stdpp.list.
Local Open Scope R_scope.

(** From the apex to the rim of the cone with the half axes A and B at the depth H, and how that turns with the angle. *)
Definition spoke (A B H f : R) : v3 := V3 (A * cos f) (B * sin f) (- H).
Definition turned (A B f : R) : v3 := V3 (- A * sin f) (B * cos f) 0.
(** The area swept per angle: that of the triangle between both. *)
Definition swept (A B H f : R) : R := vmag (vcross (spoke A B H f) (turned A B f)) / 2.
Lemma swept_sqr A B H f : let v := vcross (spoke A B H f) (turned A B f) in vdot v v = H * H * (B * B * (cos f * cos f) + A * A * (sin f * sin f)) + A * A * (B * B).
Proof.
  intros v. unfold v, vdot, vcross, spoke, turned. cbn [vx vy vz]. pose proof (sin2_cos2 f) as S. unfold Rsqr in S. set (x := cos f) in *. set (y := sin f) in *. replace (A * A * (B * B)) with (A * A * (B * B) * ((y * y + x * x) * (y * y + x * x))) by (rewrite S; ring). ring.
Qed.
(** The lateral area is the area swept once around, four times that of a quarter turn, if comp_ellint_2 is the complete elliptic
    integral of the second kind (it is said by a primitive here). *)
Theorem C89_lateral ellint a b : 0 < a → 0 < b →
  (∀ e, ∃ F, (∀ f, derivable_pt_lim F f (R_sqrt.sqrt (1 - e * e * (sin f * sin f)))) ∧ ellint e = F (PI / 2) - F 0) →
  ∃ G, (∀ f, derivable_pt_lim G f (swept a b 1 f)) ∧ econe_lateral ellint a b 1 = 4 * (G (PI / 2) - G 0).
Proof.
  intros A0 B0 EL. unfold econe_lateral. rewrite !Rabs_pos_eq by lra. set (x := Rmax a b). set (y := Rmin a b).
  assert (XY : 0 < y ∧ y <= x ∧ ((x = a ∧ y = b) ∨ (x = b ∧ y = a))). { unfold x, y, Rmax, Rmin. destruct (Rle_dec a b); lra. } destruct XY as (Y0 & YX & W).
  set (e := R_sqrt.sqrt ((x - y) * (x + y) * (1 * 1) / ((1 * 1 + y * y) * (x * x)))). assert (Q : 0 < 1 + y * y) by nra. assert (QX : 0 < x * x) by nra.
  assert (EE : e * e * (x * x * (1 + y * y)) = x * x - y * y). { unfold e. rewrite sqrt_sqrt; [field; lra|]. apply Rmult_le_pos; [nra|]. left. apply Rinv_0_lt_compat. nra. }
  destruct (EL e) as (F & FD & FE). rewrite FE. set (s := R_sqrt.sqrt (1 * 1 + y * y)). assert (S0 : 0 < s) by (apply sqrt_lt_R0; nra). assert (SS : s * s = 1 + y * y) by (unfold s; rewrite sqrt_sqrt; nra).
  (* the density: from the longer half axis on *)
  assert (DEN : ∀ u v f, u * u + v * v = 1 → 1 * 1 * (y * y * (v * v) + x * x * (u * u)) + x * x * (y * y) = (x * s) * (x * s) * (1 - e * e * (v * v)) ∧ (f : R) = f).
  { intros u v f U. split; [|done]. replace (x * s * (x * s) * (1 - e * e * (v * v))) with (x * x * (s * s) - (e * e * (x * x * (s * s))) * (v * v)) by ring. rewrite SS, EE. replace (u * u) with (1 - v * v) by lra. ring. }
  assert (ROOT : ∀ v, v * v <= 1 → R_sqrt.sqrt ((x * s) * (x * s) * (1 - e * e * (v * v))) = x * s * R_sqrt.sqrt (1 - e * e * (v * v))).
  { intros v V. assert (XS : 0 <= x * s) by (apply Rmult_le_pos; lra). rewrite sqrt_mult_alt by (apply Rmult_le_pos; done). rewrite sqrt_square; done. }
  destruct W as [[W1 W2]|[W1 W2]].
  - exists (λ f, - (x * s / 2) * F (PI / 2 - f)). split.
    + intros f. pose proof (sin2_cos2 f) as SC. unfold Rsqr in SC. assert (D1 : derivable_pt_lim (λ f, PI / 2 - f) f (-1)). { replace (-1) with (0 - 1) by ring. apply (derivable_pt_lim_minus (fct_cte (PI / 2)) id); [apply derivable_pt_lim_const|apply derivable_pt_lim_id]. }
      pose proof (derivable_pt_lim_comp (λ f, PI / 2 - f) F f _ _ D1 (FD (PI / 2 - f))) as D2. pose proof (derivable_pt_lim_scal _ (- (x * s / 2)) f _ D2) as D3. unfold mult_real_fct, comp in D3. rewrite sin_shift in D3.
      replace (swept a b 1 f) with (- (x * s / 2) * (R_sqrt.sqrt (1 - e * e * (cos f * cos f)) * -1)); [exact D3|].
      unfold swept, vmag. rewrite swept_sqr. rewrite <- W1, <- W2. destruct (DEN (sin f) (cos f) f ltac:(lra)) as [-> _]. rewrite ROOT by nra. field.
    + replace (PI / 2 - PI / 2) with 0 by ring. rewrite Rminus_0_r. field.
  - exists (λ f, x * s / 2 * F f). split.
    + intros f. pose proof (sin2_cos2 f) as SC. unfold Rsqr in SC. pose proof (derivable_pt_lim_scal _ (x * s / 2) f _ (FD f)) as D3. unfold mult_real_fct in D3.
      replace (swept a b 1 f) with (x * s / 2 * R_sqrt.sqrt (1 - e * e * (sin f * sin f))); [exact D3|].
      unfold swept, vmag. rewrite swept_sqr. rewrite <- W1, <- W2. destruct (DEN (cos f) (sin f) f ltac:(lra)) as [D _]. replace (1 * 1 * (x * x * (cos f * cos f) + y * y * (sin f * sin f)) + y * y * (x * x)) with (1 * 1 * (y * y * (sin f * sin f) + x * x * (cos f * cos f)) + x * x * (y * y)) by ring. rewrite D. rewrite ROOT by nra. field.
    + field.
Qed.
Print Assumptions C89_lateral.
(** The round cone: PI times the radius times the slanted height. *)
Example lateral_round ellint : ellint 0 = PI / 2 → econe_lateral ellint (3 / 4) (3 / 4) 1 = PI * (3 / 4) * (5 / 4).
Proof.
  intros E. unfold econe_lateral. rewrite !Rabs_pos_eq by lra. rewrite Rmax_left, Rmin_left by lra. replace ((3 / 4 - 3 / 4) * (3 / 4 + 3 / 4) * (1 * 1) / ((1 * 1 + 3 / 4 * (3 / 4)) * (3 / 4 * (3 / 4)))) with 0 by field. rewrite sqrt_0, E. replace (1 * 1 + 3 / 4 * (3 / 4)) with (5 / 4 * (5 / 4)) by field. rewrite sqrt_square by lra. field.
Qed.

Section Cone.
Variable ellint : R -> R.
Variables a b h c : R.
Hypothesis Ha : 2 * kTolerance <= a.
Hypothesis Hb : 2 * kTolerance <= b.
Hypothesis Hc : 2 * kTolerance <= c.
Hypothesis Hh : c <= h.
Let t := mk_econe ellint a b h c.
(** The piece to sample, by the shares of SurfaceArea: first the lower lid, then the side, then the upper lid. *)
Theorem C89_choose r : let S0 := PI * (a * (h + c)) * (b * (h + c)) in let S1 := econe_lateral ellint a b 1 * ((h + c) * (h + c) - (h - c) * (h - c)) in
  (ec_area t * r <= S0 → ec_choose t ellint r = 0%nat) ∧ (S0 < ec_area t * r <= S0 + S1 → ec_choose t ellint r = 1%nat) ∧ (S0 < ec_area t * r → S0 + S1 < ec_area t * r → ec_choose t ellint r = 2%nat).
Proof using Ha Hb Hc Hh.
  intros S0 S1. destruct (pos a b h c Ha Hb Hc Hh) as (A0 & B0 & C0 & H0). unfold ec_choose, t. rewrite (C89_area ellint a b h c Ha Hb Hc Hh). destruct (fields ellint a b h c Ha Hb Hc Hh) as (-> & -> & -> & -> & _). rewrite (C89_lateral_scale ellint a b Ha Hb h H0). set (l := econe_lateral ellint a b 1) in *.
  replace (PI * (a * h) * (b * h) * (1 + c / h) * (1 + c / h)) with S0 by (unfold S0; field; lra). replace (h * h * l * ((1 + c / h) * (1 + c / h) - (1 - c / h) * (1 - c / h))) with S1 by (unfold S1; field; lra). replace (PI * (a * h) * (b * h) * (1 - c / h) * (1 - c / h)) with (PI * (a * (h - c)) * (b * (h - c))) by (field; lra).
  replace (PI * (a * (h + c)) * (b * (h + c)) + PI * (a * (h - c)) * (b * (h - c)) + (l * ((h + c) * (h + c)) - l * ((h - c) * (h - c)))) with (S0 + S1 + PI * (a * (h - c)) * (b * (h - c))) by (unfold S0, S1; ring).
  set (x := (S0 + S1 + _) * r). destruct (rleb_spec x S0); destruct (rleb_spec x (S0 + S1)); split; try (split; intros); intros; try done; lra.
Qed.
Lemma side_loop n aa bb hh mu x0 y0 u : ∃ f u', ec_side_loop (Datatypes.S n) aa bb hh mu x0 y0 u = (cos f, sin f, u') ∧ ∃ k, ∀ i, u' i = u (k + i)%nat.
Proof using.
  revert x0 y0 u. induction n as [|n IH]; intros x0 y0 u.
  - cbn [ec_side_loop]. destruct (rleb _ _); do 2 eexists; (split; [reflexivity|]); exists 2%nat; done.
  - remember (Datatypes.S n) as k eqn:K. cbn [ec_side_loop]. destruct (rleb _ _); [do 2 eexists; (split; [reflexivity|]); exists 2%nat; done|]. destruct (IH (cos (2 * PI * u 0%nat)) (sin (2 * PI * u 0%nat)) (λ i, u (2 + i)%nat)) as (f & u' & E & j & J). exists f, u'. split; [done|]. exists (2 + j)%nat. intros i. rewrite J. f_equal.
Qed.
Lemma round z x y : 0 <= z → x * x + y * y = 1 → ell a b (V3 (z * a * x) (z * b * y) (h - z)) = z.
Proof using Ha Hb.
  intros Z E. pose proof kTolerance_pos. unfold ell. cbn [vx vy]. replace (z * a * x / a * (z * a * x / a) + z * b * y / b * (z * b * y / b)) with (z * z * (x * x + y * y)) by (field; lra). rewrite E, Rmult_1_r. by apply sqrt_square.
Qed.
Lemma disc z u w : 0 <= z → let q := random_in_ellipse (z * a) (z * b) u in ell a b (V3 (fst q) (snd q) w) <= z.
Proof using Ha Hb.
  intros Z q. pose proof kTolerance_pos. destruct (Req_dec z 0) as [->|N].
  - assert (E : ∀ n A B u, in_ellipse_loop n (0 * a) (0 * b) A B u = (0, 0)). { intros n A B. induction n as [|n IH]; intros v; cbn [in_ellipse_loop]; [done|]. destruct (rleb _ _); [f_equal; ring|apply IH]. }
    unfold q, random_in_ellipse. rewrite E. unfold ell. cbn [fst snd vx vy]. replace (0 / a * (0 / a) + 0 / b * (0 / b)) with 0 by (field; lra). rewrite sqrt_0. lra.
  - assert (0 < z * a) by nra. assert (0 < z * b) by nra. pose proof (random_in (z * a) (z * b) u ltac:(done) ltac:(done)) as D. cbv zeta in D. fold q in D. clearbody q. destruct q as [x y]. cbn [fst snd] in *.
    assert (E : ell a b (V3 x y w) = z * ell (z * a) (z * b) (V3 x y 0)). { unfold ell. cbn [vx vy]. rewrite <- (sqrt_square z) at 1 by done. rewrite <- sqrt_mult_alt by nra. f_equal. field. lra. } rewrite E. nra.
Qed.
(** Every sample is on the piece that was picked. *)
Theorem C89_sample x0 y0 u : (∀ i, 0 <= u i <= 1) → let q := ec_sample t ellint x0 y0 u in
  match ec_choose t ellint (u 0%nat) with 0%nat => econe_lid a b h c false q | 1%nat => econe_side a b h c q | _ => econe_lid a b h c true q end.
Proof using Ha Hb Hc Hh.
  intros U q. destruct (pos a b h c Ha Hb Hc Hh) as (A0 & B0 & C0 & H0). unfold q, ec_sample. destruct (ec_choose t ellint (u 0%nat)) as [|[|k]].
  - unfold t. destruct (fields ellint a b h c Ha Hb Hc Hh) as (-> & -> & -> & -> & _). split; [done|]. unfold nappe. cbn [vz]. replace (h - - c) with (h + c) by ring. apply disc. lra.
  - unfold ec_sample_side, t. destruct (fields ellint a b h c Ha Hb Hc Hh) as (-> & -> & -> & -> & _). destruct (side_loop 999 (a * h * (a * h)) (b * h * (b * h)) (h * h) (Rmax (a * h) (b * h) * R_sqrt.sqrt (h * h + Rmax (a * h) (b * h) * Rmax (a * h) (b * h))) x0 y0 (λ i, u (1 + i)%nat)) as (f & u' & E & j & J). change (Datatypes.S 999) with 1000%nat in E. rewrite E.
    assert (V : 0 <= u' 0%nat <= 1) by (rewrite J; apply U). set (v := u' 0%nat) in *. pose proof (sin2_cos2 f) as SC. unfold Rsqr in SC. set (z := R_sqrt.sqrt _). assert (Z0 : 0 <= z) by apply sqrt_pos.
    assert (MM : 0 <= (h - c) * (h - c) <= (h + c) * (h + c)) by (clear - C0 H0 Hh; nra).
    assert (ZZ : z * z = v * ((h + c) * (h + c)) + (1 - v) * ((h - c) * (h - c))). { unfold z. rewrite sqrt_sqrt; [ring|]. rewrite !Rmult_assoc. clear - V MM. set (P := (h + c) * (h + c)) in *. set (Q := (h - c) * (h - c)) in *. clearbody P Q. nra. }
    assert (ZB : h - c <= z <= h + c). { clearbody z. split; (apply sqr_le; [lra|lra|]); rewrite ZZ; clear - V MM; set (P := (h + c) * (h + c)) in *; set (Q := (h - c) * (h - c)) in *; clearbody P Q; nra. }
    split; [cbn [vz]; apply Rabs_le; lra|]. rewrite round by lra. cbn [vz]. ring.
  - unfold t. destruct (fields ellint a b h c Ha Hb Hc Hh) as (-> & -> & -> & -> & _). split; [done|]. unfold nappe. cbn [vz]. apply disc. lra.
Qed.
(** On the side the first pair of numbers is taken whose second is below the area swept at the angle of the first, relative to a
    bound of it; the next number picks the depth below the apex by its square. *)
Lemma swept_mu A B H f : R_sqrt.sqrt ((H * H + A * A * (cos f * cos f) + B * B * (sin f * sin f)) * (A * A * (sin f * sin f) + B * B * (cos f * cos f)) - (A * A - B * B) * cos f * sin f * ((A * A - B * B) * cos f * sin f)) = 2 * swept A B H f.
Proof using.
  unfold swept, vmag. rewrite swept_sqr. replace (2 * (R_sqrt.sqrt (H * H * (B * B * (cos f * cos f) + A * A * (sin f * sin f)) + A * A * (B * B)) / 2)) with (R_sqrt.sqrt (H * H * (B * B * (cos f * cos f) + A * A * (sin f * sin f)) + A * A * (B * B))) by field. f_equal.
  pose proof (sin2_cos2 f) as SC. unfold Rsqr in SC. set (x := cos f) in *. set (y := sin f) in *. replace (A * A * (B * B)) with (A * A * (B * B) * ((y * y + x * x) * (y * y + x * x))) by (rewrite SC; ring). ring.
Qed.
Lemma side_loop_first n A B H mu x y u k : (k < n)%nat → (∀ j, (j < k)%nat → 2 * swept A B H (2 * PI * u (2 * j)%nat) < mu * u (2 * j + 1)%nat) → mu * u (2 * k + 1)%nat <= 2 * swept A B H (2 * PI * u (2 * k)%nat) →
  ∃ u', ec_side_loop n (A * A) (B * B) (H * H) mu x y u = (cos (2 * PI * u (2 * k)%nat), sin (2 * PI * u (2 * k)%nat), u') ∧ u' 0%nat = u (2 * k + 2)%nat.
Proof using.
  revert x y u k. induction n as [|n IH]; intros x y u k Hk Hr Ht; [lia|]. cbn [ec_side_loop]. rewrite swept_mu. destruct k as [|k].
  - change (2 * 0 + 1)%nat with 1%nat in Ht. change (2 * 0)%nat with 0%nat in *. destruct (rleb_spec (mu * u 1%nat) (2 * swept A B H (2 * PI * u 0%nat))); [|lra]. eexists. split; [reflexivity|done].
  - pose proof (Hr 0%nat ltac:(lia)) as R0. change (2 * 0 + 1)%nat with 1%nat in R0. change (2 * 0)%nat with 0%nat in R0. destruct (rleb_spec (mu * u 1%nat) (2 * swept A B H (2 * PI * u 0%nat))); [lra|].
    destruct (IH (cos (2 * PI * u 0%nat)) (sin (2 * PI * u 0%nat)) (λ i, u (2 + i)%nat) k) as (u' & E & U); [lia| | |].
    + intros j Hj. specialize (Hr (Datatypes.S j) ltac:(lia)). replace (2 + 2 * j)%nat with (2 * Datatypes.S j)%nat by lia. by replace (2 + (2 * j + 1))%nat with (2 * Datatypes.S j + 1)%nat by lia.
    + replace (2 + 2 * k)%nat with (2 * Datatypes.S k)%nat by lia. by replace (2 + (2 * k + 1))%nat with (2 * Datatypes.S k + 1)%nat by lia.
    + exists u'. replace (2 + 2 * k)%nat with (2 * Datatypes.S k)%nat in E by lia. split; [done|]. rewrite U. f_equal. lia.
Qed.
Theorem C89_sample_side x0 y0 u k : let M := Rmax (a * h) (b * h) in let top := M * R_sqrt.sqrt (h * h + M * M) in let f j := 2 * PI * u (2 * j)%nat in
  (∀ g, 0 <= 2 * swept (a * h) (b * h) h g <= top) ∧
  ((k < 1000)%nat → (∀ j, (j < k)%nat → 2 * swept (a * h) (b * h) h (f j) < top * u (2 * j + 1)%nat) → top * u (2 * k + 1)%nat <= 2 * swept (a * h) (b * h) h (f k) →
   let w := u (2 * k + 2)%nat in let z := R_sqrt.sqrt (w * (h + c) * (h + c) + (1 - w) * (h - c) * (h - c)) in
   ec_sample_side t x0 y0 u = V3 (z * a * cos (f k)) (z * b * sin (f k)) (h - z)).
Proof using Ha Hb Hc Hh.
  intros M top f. destruct (pos a b h c Ha Hb Hc Hh) as (A0 & B0 & C0 & H0). split.
  - intros g. unfold swept. pose proof (vmag_nonneg (vcross (spoke (a * h) (b * h) h g) (turned (a * h) (b * h) g))) as V0. split; [lra|]. replace (2 * (vmag (vcross (spoke (a * h) (b * h) h g) (turned (a * h) (b * h) g)) / 2)) with (vmag (vcross (spoke (a * h) (b * h) h g) (turned (a * h) (b * h) g))) by field.
    assert (AH : 0 < a * h) by nra. assert (BH : 0 < b * h) by nra. assert (M1 : a * h <= M) by apply Rmax_l. assert (M2 : b * h <= M) by apply Rmax_r. unfold top, vmag. rewrite swept_sqr. rewrite <- (sqrt_square M) at 1 by lra. rewrite <- sqrt_mult_alt by nra. apply sqrt_le_1_alt.
    pose proof (sin2_cos2 g) as SC. unfold Rsqr in SC. set (x := cos g) in *. set (y := sin g) in *. set (A := a * h) in *. set (B := b * h) in *. clearbody M A B. clear - AH BH M1 M2 SC. assert (Q1 : A * A <= M * M) by nra. assert (Q2 : B * B <= M * M) by nra. assert (X0 : 0 <= x * x) by nra. assert (Y0 : 0 <= y * y) by nra. assert (H2 : 0 <= h * h) by nra.
    set (AA := A * A) in *. set (BB := B * B) in *. set (MM := M * M) in *. assert (AA0 : 0 < AA) by (unfold AA; nra). assert (BB0 : 0 < BB) by (unfold BB; nra). clearbody AA BB MM. assert (L1 : BB * (x * x) + AA * (y * y) <= MM) by nra. assert (L2 : AA * BB <= MM * MM) by nra. nra.
  - intros Hk Hr Ht w z. unfold ec_sample_side, t. destruct (fields ellint a b h c Ha Hb Hc Hh) as (-> & -> & -> & -> & _). fold M. fold top. destruct (side_loop_first 1000 (a * h) (b * h) h top x0 y0 u k Hk Hr Ht) as (u' & E & U'). rewrite E. rewrite U'. done.
Qed.
(** The mesh: vertex i of n of the upper or the lower row lies on the rim of that lid, i steps around; the first and the last are the same. *)
Theorem C89_mesh n i up : (0 < n)%nat → let v := ec_vertex t n i up in econe_side a b h c v ∧ econe_lid a b h c up v ∧
  (∃ r, 0 <= r ∧ vx v = r * (a * cos (INR i * (2 * PI / INR n))) ∧ vy v = r * (b * sin (INR i * (2 * PI / INR n)))) ∧ ec_vertex t n n up = ec_vertex t n 0 up.
Proof using Ha Hb Hc Hh.
  intros Hn v. destruct (pos a b h c Ha Hb Hc Hh) as (A0 & B0 & C0 & H0). assert (N0 : 0 < INR n) by (by apply lt_0_INR). unfold v, ec_vertex, t. destruct (fields ellint a b h c Ha Hb Hc Hh) as (-> & -> & -> & -> & _). set (z := if up then c else - c).
  assert (Z : Rabs z = c ∧ 0 <= h - z) by (unfold z; destruct up; [rewrite Rabs_pos_eq by lra|rewrite Rabs_Ropp, Rabs_pos_eq by lra]; lra). destruct Z as [Z1 Z2]. replace (2 * INR i * PI / INR n) with (INR i * (2 * PI / INR n)) by (field; lra). set (f := INR i * (2 * PI / INR n)). pose proof (sin2_cos2 f) as SC. unfold Rsqr in SC.
  assert (E : ell a b (V3 ((h - z) * a * cos f) ((h - z) * b * sin f) z) = h - z) by (change (ell a b (V3 ((h - z) * a * cos f) ((h - z) * b * sin f) z)) with (ell a b (V3 ((h - z) * a * cos f) ((h - z) * b * sin f) (h - (h - z)))); apply round; lra).
  unfold econe_side, econe_lid, nappe. cbn [vx vy vz]. rewrite E. split; [lra|]. split; [split; [done|lra]|]. split; [exists (h - z); split; [done|split; ring]|].
  replace (2 * INR n * PI / INR n) with (0 + 2 * INR 1 * PI) by (cbn [INR]; field; lra). replace (2 * INR 0 * PI / INR n) with 0 by (cbn [INR]; field; lra). by rewrite cos_period, sin_period.
Qed.

(** Normals *)
Definition near_lid p := Rabs (Rabs (vz p) - c) <= kHalfTolerance.
Definition near_side p := Rabs (above a b h p) <= kHalfTolerance.
Definition off_axis p := vx p ≠ 0 ∨ vy p ≠ 0.
Lemma side_vector p : off_axis p → let g := econe_gradient a b p in let nx := vx p * ec_ix t * ec_ix t in let ny := vy p * ec_iy t * ec_iy t in
  nx * nx + ny * ny ≠ 0 ∧ R_sqrt.sqrt (vx p * nx + vy p * ny) = ell a b p ∧ 0 < ell a b p ∧ V3 nx ny (ell a b p) = vscale (ell a b p) g.
Proof using Ha Hb Hc Hh.
  intros O g nx ny. destruct (pos a b h c Ha Hb Hc Hh) as (A0 & B0 & _). unfold nx, ny, t. destruct (fields ellint a b h c Ha Hb Hc Hh) as (_ & _ & _ & _ & -> & -> & _).
  assert (SQ : ∀ x k, 0 < k → x ≠ 0 → 0 < (x * k) * (x * k)) by (intros x k K X; apply Rsqr_pos_lt; apply Rmult_integral_contrapositive; lra). assert (I1 : 0 < 1 / a) by (apply Rdiv_lt_0_compat; lra). assert (I2 : 0 < 1 / b) by (apply Rdiv_lt_0_compat; lra).
  assert (E0 : 0 < ell a b p). { unfold ell. apply sqrt_lt_R0. unfold Rdiv. pose proof (Rle_0_sqr (vx p * / a)) as Q1. pose proof (Rle_0_sqr (vy p * / b)) as Q2. unfold Rsqr in *. destruct O as [X|X]; [pose proof (SQ _ (/ a) ltac:(by apply Rinv_0_lt_compat) X)|pose proof (SQ _ (/ b) ltac:(by apply Rinv_0_lt_compat) X)]; lra. }
  split; [|split; [|split; [done|]]].
  - pose proof (Rle_0_sqr (vx p * (1 / a) * (1 / a))) as Q1. pose proof (Rle_0_sqr (vy p * (1 / b) * (1 / b))) as Q2. unfold Rsqr in *. destruct O as [X|X]; [pose proof (SQ _ (1 / a * (1 / a)) ltac:(by apply Rmult_lt_0_compat) X)|pose proof (SQ _ (1 / b * (1 / b)) ltac:(by apply Rmult_lt_0_compat) X)]; rewrite <- !Rmult_assoc in *; lra.
  - unfold ell. f_equal. unfold Rdiv. ring.
  - unfold g, econe_gradient. apply v3_eq; cbn [vscale vx vy vz]; field; lra.
Qed.
(** Off the axis: along the outward gradient on the side, along the axis on a lid, between both on an edge, elsewhere marked invalid. *)
Theorem C89_normal kmin p : 0 <= kmin → off_axis p → let n := ec_normal kmin t p in let g := econe_gradient a b p in let lid := V3 0 0 (rsign (vz p)) in
  (near_side p → ¬ near_lid p → ∃ k, 0 < k ∧ n = (vscale k g, true)) ∧
  (¬ near_side p → near_lid p → n = (lid, true)) ∧
  (near_side p → near_lid p → ∃ k k', 0 < k ∧ 0 < k' ∧ n = (vscale k' (vadd lid (vscale k g)), true) ∧ (kmin = 0 → vdot (vscale k g) (vscale k g) = 1)) ∧
  (¬ near_side p → ¬ near_lid p → snd n = false) ∧
  (kmin = 0 → snd n = true → vdot (fst n) (fst n) = 1).
Proof using Ha Hb Hc Hh.
  intros Hk O n g lid. destruct (side_vector p O) as (N0 & NE & E0 & NV). fold g in NV. set (e := ell a b p) in *.
  assert (DZ : ec_dz t p = Rabs (vz p) - c) by (by apply dz_eq). assert (DS : (e + vz p - ec_h t) * ec_cos t = above a b h p). { unfold t. destruct (fields ellint a b h c Ha Hb Hc Hh) as (_ & _ & -> & _ & _ & _ & -> & _). unfold above. fold e. ring. }
  assert (SG : rsign (vz p) * rsign (vz p) = 1) by (unfold rsign; destruct (rltb (vz p) 0); ring).
  assert (GG : 1 <= vdot g g) by (unfold g, vdot, econe_gradient; cbn [vx vy vz]; pose proof (Rle_0_sqr (vx p / (a * a) / ell a b p)) as Q1; pose proof (Rle_0_sqr (vy p / (b * b) / ell a b p)) as Q2; unfold Rsqr in *; lra).
  assert (SC : ∀ s v, vdot (vscale s v) (vscale s v) = s * s * vdot v v) by (intros s v; unfold vdot, vscale; cbn [vx vy vz]; ring).
  destruct (vunit_eq kmin (vscale e g) Hk) as (k0 & K0 & KE & [KL KU] & KI); [rewrite SC; apply Rmult_lt_0_compat; [nra|lra]|].
  assert (VS : ∀ s v w, vscale s (vscale v w) = vscale (s * v) w) by (intros s v w; apply v3_eq; cbn; ring). rewrite VS in KE, KL, KU, KI. set (k := k0 * e) in *. assert (K : 0 < k) by (by apply Rmult_lt_0_compat).
  assert (NEQ : n = let n0 := V3 0 0 (if rleb (Rabs (Rabs (vz p) - c)) kHalfTolerance then rsign (vz p) else 0) in
    let n1 := if rleb (Rabs (above a b h p)) kHalfTolerance then vunit kmin (vadd n0 (vscale k g)) else n0 in
    if rgtb (vdot n1 n1) 0 then (n1, true) else (if rgtb (above a b h p) (Rabs (vz p) - c) then vscale k g else V3 (vx n1) (vy n1) (rsign (vz p)), false)).
  { unfold n, ec_normal. cbv zeta. rewrite DZ. destruct (reqb_spec (vx p * ec_ix t * ec_ix t * (vx p * ec_ix t * ec_ix t) + vy p * ec_iy t * ec_iy t * (vy p * ec_iy t * ec_iy t)) 0) as [Z|_]; [by destruct N0|]. rewrite NE, DS, NV, KE. done. }
  rewrite NEQ. unfold near_side, near_lid. cbv zeta. clear NEQ n.
  destruct (rleb_spec (Rabs (Rabs (vz p) - c)) kHalfTolerance) as [L|L]; destruct (rleb_spec (Rabs (above a b h p)) kHalfTolerance) as [S|S].
  - fold lid. set (v := vadd lid (vscale k g)). assert (V0 : 0 < vdot v v).
    { pose proof (Rle_0_sqr (vx v)) as Q1. pose proof (Rle_0_sqr (vy v)) as Q2. pose proof (Rle_0_sqr (vz v)) as Q3. unfold Rsqr in *. assert (X : vx v = k * vx g) by (unfold v, lid; cbn [vadd vscale vx]; ring). assert (Y : vy v = k * vy g) by (unfold v, lid; cbn [vadd vscale vy]; ring). unfold vdot.
      assert (NZ : vx g ≠ 0 ∨ vy g ≠ 0). { destruct (pos a b h c Ha Hb Hc Hh) as (A0 & B0 & _). unfold g, econe_gradient. cbn [vx vy]. fold e. destruct O as [O|O]; [left|right]; unfold Rdiv; repeat apply Rmult_integral_contrapositive_currified; try done; apply Rinv_neq_0_compat; try lra; apply Rmult_integral_contrapositive_currified; lra. }
      destruct NZ as [Z|Z]; [assert (0 < vx v * vx v) by (apply Rsqr_pos_lt; rewrite X; apply Rmult_integral_contrapositive; lra)|assert (0 < vy v * vy v) by (apply Rsqr_pos_lt; rewrite Y; apply Rmult_integral_contrapositive; lra)]; lra. }
    destruct (vunit_eq kmin v Hk V0) as (k' & K' & E' & [L' _] & U'). rewrite E'. destruct (rgtb_spec (vdot (vscale k' v) (vscale k' v)) 0); [|lra]. split; [tauto|]. split; [tauto|]. split; [intros _ _; exists k, k'; done|]. split; [tauto|]. intros Z _. by apply U'.
  - fold lid. assert (LL : vdot lid lid = 1) by (unfold vdot, lid; cbn [vx vy vz]; rewrite SG; ring). rewrite LL. destruct (rgtb_spec 1 0); [|lra]. split; [tauto|]. split; [done|]. split; [tauto|]. split; [tauto|]. intros _ _. done.
  - assert (ZV : vadd (V3 0 0 0) (vscale k g) = vscale k g) by (apply v3_eq; cbn [vadd vx vy vz]; ring). rewrite ZV. destruct (vunit_eq kmin (vscale k g) Hk KL) as (k' & K' & E' & [L' _] & U'). rewrite VS in E', L', U'. rewrite E'. destruct (rgtb_spec (vdot (vscale (k' * k) g) (vscale (k' * k) g)) 0); [|lra]. split; [intros _ _; exists (k' * k); split; [nra|done]|]. split; [tauto|]. split; [tauto|]. split; [tauto|]. intros Z _. by apply U'.
  - assert (ZZ : vdot (V3 0 0 0) (V3 0 0 0) = 0) by (unfold vdot; cbn; ring). rewrite ZZ. destruct (rgtb_spec 0 0); [lra|]. split; [tauto|]. split; [tauto|]. split; [tauto|]. split; [done|]. done.
Qed.
End Cone.
Print Assumptions C89_choose.
Print Assumptions C89_sample.
Print Assumptions C89_sample_side.
Print Assumptions C89_mesh.
Print Assumptions C89_normal.
Lemma tol_less : 0 < kTolerance <= / 1000.
Proof. unfold kTolerance. lra. Qed.
Lemma tilt_one : / 2 < tilt 1 1 < 1.
Proof.
  pose proof tol_less. unfold tilt. rewrite Rmin_left by lra. replace (1 + 1 * 1) with 2 by ring. assert (S0 : 0 < R_sqrt.sqrt 2) by (apply sqrt_lt_R0; lra). assert (SS : R_sqrt.sqrt 2 * R_sqrt.sqrt 2 = 2) by (apply sqrt_sqrt; lra). set (s := R_sqrt.sqrt 2) in *. assert (S1 : 1 < s < 2) by (split; nra). split; [apply Rmult_lt_reg_r with s; [done|]|apply Rmult_lt_reg_r with s; [done|]]; unfold Rdiv; rewrite ?Rmult_assoc, Rinv_l by lra; lra.
Qed.
(** On the axis one below the apex the normal is said to be valid, although the point is deep inside. *)
Theorem C89_normal_axis_refuted ellint kmin : 0 <= kmin → let t := mk_econe ellint 1 1 2 2 in let p := V3 0 0 1 in
  ec_inside t p = kInside ∧ snd (ec_normal kmin t p) = true ∧ / 2 < ec_safety_out t p.
Proof.
  intros Hk t p. pose proof tol_less as T. pose proof tilt_one as TO. assert (E : ell 1 1 p = 0) by (unfold ell, p; cbn [vx vy]; replace (0 / 1 * (0 / 1) + 0 / 1 * (0 / 1)) with 0 by field; apply sqrt_0). assert (AB : above 1 1 2 p = - tilt 1 1) by (unfold above; rewrite E; cbn [vz p]; ring). assert (AZ : Rabs (vz p) = 1) by (cbn [vz p]; apply Rabs_pos_eq; lra).
  assert (T2 : 2 * kTolerance <= 1) by lra. assert (T3 : 2 * kTolerance <= 2) by lra. split; [|split].
  - apply inside_in; [done..|lra|]. rewrite AB, AZ. unfold kHalfTolerance. lra.
  - unfold ec_normal, t. rewrite dz_eq by (done || lra). destruct (fields ellint 1 1 2 2 T2 T2 T3 (Rle_refl 2)) as (_ & _ & -> & _ & -> & -> & -> & _). rewrite AZ. unfold p. cbn [vx vy vz].
    destruct (rleb_spec (Rabs (1 - 2)) kHalfTolerance) as [L|_]; [rewrite Rabs_left in L by lra; unfold kHalfTolerance in L; lra|]. destruct (reqb_spec (0 * (1 / 1) * (1 / 1) * (0 * (1 / 1) * (1 / 1)) + 0 * (1 / 1) * (1 / 1) * (0 * (1 / 1) * (1 / 1))) 0) as [_|N]; [|destruct N; field]. replace ((1 + 1 - 2) * tilt 1 1) with 0 by ring.
    destruct (rleb_spec (Rabs 0) kHalfTolerance) as [_|L]; [|rewrite Rabs_R0 in L; unfold kHalfTolerance in L; lra]. replace (0 * (1 / 1) * (1 / 1)) with 0 by field.
    assert (U1 : 0 < vdot (V3 0 0 1) (V3 0 0 1)) by (unfold vdot; cbn; lra). destruct (vunit_eq kmin (V3 0 0 1) Hk U1) as (k & K & E1 & [L1 _] & _). rewrite E1. assert (ZV : vadd (V3 0 0 0) (vscale k (V3 0 0 1)) = vscale k (V3 0 0 1)) by (apply v3_eq; cbn; ring). rewrite ZV. destruct (vunit_eq kmin _ Hk L1) as (k' & K' & E2 & [L2 _] & _). rewrite E2. destruct (rgtb_spec (vdot (vscale k' (vscale k (V3 0 0 1))) (vscale k' (vscale k (V3 0 0 1)))) 0); [done|lra].
  - unfold t. rewrite safety_out_eq by (done || lra). rewrite AB, AZ. set (m := Rmin (- - tilt 1 1) (2 - 1)). assert (M : / 2 < m) by (unfold m; apply Rmin_glb_lt; lra). destruct (zeroed_cases m) as [-> | [_ Z]]; [done|]. apply abs_le in Z. unfold kHalfTolerance in Z. lra.
Qed.
Print Assumptions C89_normal_axis_refuted.
(** Nor does a valid normal mean a point near the surface outside: far off, level with a lid, the answer is valid. *)
Theorem C89_normal_valid_refuted ellint kmin : 0 <= kmin → let t := mk_econe ellint 1 1 2 1 in let p := V3 9 0 1 in ec_inside t p = kOutside ∧ ec_normal kmin t p = (V3 0 0 1, true).
Proof.
  intros Hk t p. pose proof tol_less as T. pose proof tilt_one as TO. assert (E : ell 1 1 p = 9) by (unfold ell, p; cbn [vx vy]; replace (9 / 1 * (9 / 1) + 0 / 1 * (0 / 1)) with (9 * 9) by field; apply sqrt_square; lra). assert (AB : above 1 1 2 p = 8 * tilt 1 1) by (unfold above; rewrite E; cbn [vz p]; ring). assert (AZ : Rabs (vz p) = 1) by (cbn [vz p]; apply Rabs_pos_eq; lra). assert (T2 : 2 * kTolerance <= 1) by lra. assert (T3 : 1 <= 2) by lra. split.
  - apply inside_out. unfold t. destruct (ec_contains _ _) eqn:C; [|done]. apply contains_iff in C; [|done..]. rewrite AB in C. unfold kHalfTolerance in C. lra.
  - destruct (C89_normal ellint 1 1 2 1 T2 T2 T2 T3 kmin p Hk) as (_ & N & _); [left; cbn [vx p]; lra|]. unfold t. rewrite N.
    + unfold rsign. cbn [vz p]. destruct (rltb_spec 1 0); [lra|done].
    + unfold near_side. rewrite AB, Rabs_pos_eq by lra. unfold kHalfTolerance. lra.
    + unfold near_lid. rewrite AZ. replace (1 - 1) with 0 by ring. rewrite Rabs_R0. unfold kHalfTolerance. lra.
Qed.
Print Assumptions C89_normal_valid_refuted.
(** The cone of slopes 2 and 1 with the apex at 3, cut at 1: a point of the side, its normal direction, and the volume. *)
Example cone_three ellint : let t := mk_econe ellint 2 1 3 1 in let p := V3 6 0 0 in econe_side 2 1 3 1 p ∧ ec_inside t p = kSurface ∧ off_axis p ∧ econe_gradient 2 1 p = V3 (1 / 2) 0 1 ∧ ec_volume t = PI * (112 / 3).
Proof.
  intros t p. pose proof tol_less as T. assert (H2 : 2 * kTolerance <= 2) by lra. assert (H1 : 2 * kTolerance <= 1) by lra. assert (H3 : 1 <= 3) by lra. assert (E : ell 2 1 p = 3) by (unfold ell, p; cbn [vx vy]; replace (6 / 2 * (6 / 2) + 0 / 1 * (0 / 1)) with (3 * 3) by field; apply sqrt_square; lra).
  assert (S : econe_side 2 1 3 1 p) by (split; [cbn [vz p]; rewrite Rabs_R0; lra|rewrite E; cbn [vz p]; ring]). split; [done|]. split; [apply (C89_inside ellint 2 1 3 1 H2 H1 H1 H3 p); by left|]. split; [left; cbn [vx p]; lra|]. split; [unfold econe_gradient; rewrite E; apply v3_eq; cbn [vx vy vz p]; field|].
  unfold t. destruct (measures ellint 2 1 3 1 H2 H1 H1 H3) as [-> _]. field.
Qed.
