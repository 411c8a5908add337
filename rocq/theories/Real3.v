(** Three-vectors over the real numbers and boolean comparisons, shared by the geometry
    kernels.  VecGeom/base/Vector3D.h (operators are component-wise), VecGeom/base/Math.h.
    Arithmetic is exact: [Precision] is modelled by [R]. *)
From Coq Require Import Reals Lra Bool.
Local Open Scope R_scope.

Record v3 := V3 { vx : R; vy : R; vz : R }.
Definition vadd (a b : v3) : v3 := V3 (vx a + vx b) (vy a + vy b) (vz a + vz b).
Definition vsub (a b : v3) : v3 := V3 (vx a - vx b) (vy a - vy b) (vz a - vz b).
Definition vscale (k : R) (a : v3) : v3 := V3 (k * vx a) (k * vy a) (k * vz a).
Definition vneg (a : v3) : v3 := vscale (-1) a.
Definition vmul (a b : v3) : v3 := V3 (vx a * vx b) (vy a * vy b) (vz a * vz b).
Definition vdot (a b : v3) : R := vx a * vx b + vy a * vy b + vz a * vz b.
Definition vcross (a b : v3) : v3 :=
  V3 (vy a * vz b - vz a * vy b) (vz a * vx b - vx a * vz b) (vx a * vy b - vy a * vx b).
Definition vzero : v3 := V3 0 0 0.
Definition vmag (a : v3) : R := sqrt (vdot a a).
Definition vdist (a b : v3) : R := vmag (vsub a b).
(** The point at distance [t] along a ray. *)
Definition along (p d : v3) (t : R) : v3 := vadd p (vscale t d).

Lemma v3_eq a b : vx a = vx b -> vy a = vy b -> vz a = vz b -> a = b.
Proof. destruct a, b; cbn; congruence. Qed.

(** Boolean comparisons: the C++ operators without NaN. *)
Definition rltb (a b : R) : bool := if Rlt_dec a b then true else false.
Definition rleb (a b : R) : bool := if Rle_dec a b then true else false.
Definition rgtb (a b : R) : bool := rltb b a.
Definition rgeb (a b : R) : bool := rleb b a.
Definition reqb (a b : R) : bool := if Req_EM_T a b then true else false.
Lemma rltb_spec a b : reflect (a < b) (rltb a b).
Proof. unfold rltb. destruct (Rlt_dec a b); now constructor. Qed.
Lemma rleb_spec a b : reflect (a <= b) (rleb a b).
Proof. unfold rleb. destruct (Rle_dec a b); now constructor. Qed.
Lemma reqb_spec a b : reflect (a = b) (reqb a b).
Proof. unfold reqb. destruct (Req_EM_T a b); now constructor. Qed.
Lemma rgtb_spec a b : reflect (a > b) (rgtb a b).
Proof. unfold rgtb. apply rltb_spec. Qed.
Lemma rgeb_spec a b : reflect (a >= b) (rgeb a b).
Proof. unfold rgeb. destruct (rleb_spec b a); constructor; lra. Qed.
Lemma rltb_true a b : rltb a b = true <-> a < b.
Proof. destruct (rltb_spec a b); split; intros; auto; discriminate. Qed.
Lemma rltb_false a b : rltb a b = false <-> b <= a.
Proof. destruct (rltb_spec a b); split; intros; auto; try discriminate; lra. Qed.
Lemma rleb_true a b : rleb a b = true <-> a <= b.
Proof. destruct (rleb_spec a b); split; intros; auto; discriminate. Qed.
Lemma rleb_false a b : rleb a b = false <-> b < a.
Proof. destruct (rleb_spec a b); split; intros; auto; try discriminate; lra. Qed.
Lemma reqb_true a b : reqb a b = true <-> a = b.
Proof. destruct (reqb_spec a b); split; intros; auto; discriminate. Qed.
Lemma reqb_false a b : reqb a b = false <-> a <> b.
Proof. destruct (reqb_spec a b); split; intros; auto; try discriminate; contradiction. Qed.

(** Case analysis on every comparison in sight. *)
Ltac rcase :=
  repeat match goal with
  | |- context [rltb ?a ?b] => destruct (rltb_spec a b)
  | |- context [rleb ?a ?b] => destruct (rleb_spec a b)
  | |- context [rgtb ?a ?b] => destruct (rgtb_spec a b)
  | |- context [rgeb ?a ?b] => destruct (rgeb_spec a b)
  | |- context [reqb ?a ?b] => destruct (reqb_spec a b)
  | H : context [rltb ?a ?b] |- _ => destruct (rltb_spec a b)
  | H : context [rleb ?a ?b] |- _ => destruct (rleb_spec a b)
  | H : context [rgtb ?a ?b] |- _ => destruct (rgtb_spec a b)
  | H : context [rgeb ?a ?b] |- _ => destruct (rgeb_spec a b)
  | H : context [reqb ?a ?b] |- _ => destruct (reqb_spec a b)
  end.

(** VecGeom/base/Math.h:27 (double precision) and 52 *)
Definition kTolerance : R := / 1000000000.
Definition kHalfTolerance : R := / 2 * kTolerance.
Lemma kTolerance_pos : 0 < kTolerance.
Proof. unfold kTolerance. lra. Qed.
Lemma kHalfTolerance_pos : 0 < kHalfTolerance.
Proof. unfold kHalfTolerance, kTolerance. lra. Qed.

Lemma vdot_self_nonneg a : 0 <= vdot a a.
Proof. unfold vdot. pose proof (Rle_0_sqr (vx a)); pose proof (Rle_0_sqr (vy a)); pose proof (Rle_0_sqr (vz a)). unfold Rsqr in *. lra. Qed.
Lemma vmag_nonneg a : 0 <= vmag a.
Proof. apply sqrt_pos. Qed.
Lemma vmag_sqr a : vmag a * vmag a = vdot a a.
Proof. apply sqrt_sqrt, vdot_self_nonneg. Qed.
Lemma vdot_comm a b : vdot a b = vdot b a.
Proof. unfold vdot; ring. Qed.
Lemma sqr_le_le a b : 0 <= b -> a * a <= b * b -> a <= b.
Proof. intros Hb H. destruct (Rle_lt_dec a b); auto. exfalso. nra. Qed.
(** Cauchy-Schwarz *)
Lemma vdot_le a b : vdot a b <= vmag a * vmag b.
Proof.
  apply sqr_le_le; [apply Rmult_le_pos; apply vmag_nonneg|].
  replace (vmag a * vmag b * (vmag a * vmag b)) with (vmag a * vmag a * (vmag b * vmag b)) by ring.
  rewrite !vmag_sqr. unfold vdot.
  pose proof (Rle_0_sqr (vx a * vy b - vy a * vx b)); pose proof (Rle_0_sqr (vx a * vz b - vz a * vx b));
  pose proof (Rle_0_sqr (vy a * vz b - vz a * vy b)). unfold Rsqr in *. nra.
Qed.
Lemma vmag_add a b : vmag (vadd a b) <= vmag a + vmag b.
Proof.
  apply sqr_le_le; [pose proof (vmag_nonneg a); pose proof (vmag_nonneg b); lra|].
  rewrite vmag_sqr. pose proof (vdot_le a b). pose proof (vmag_sqr a); pose proof (vmag_sqr b).
  replace (vdot (vadd a b) (vadd a b)) with (vdot a a + 2 * vdot a b + vdot b b) by (unfold vdot, vadd; cbn; ring). nra.
Qed.
Lemma vmag_scale k a : vmag (vscale k a) = Rabs k * vmag a.
Proof.
  unfold vmag. replace (vdot (vscale k a) (vscale k a)) with (k * k * vdot a a) by (unfold vdot, vscale; cbn; ring).
  rewrite sqrt_mult_alt by nra. f_equal. replace (k * k) with (Rsqr k) by reflexivity. apply sqrt_Rsqr_abs.
Qed.
Lemma vdist_comm a b : vdist a b = vdist b a.
Proof. unfold vdist, vmag. f_equal. unfold vdot, vsub; cbn; ring. Qed.
Lemma vdist_triangle a b c : vdist a c <= vdist a b + vdist b c.
Proof.
  unfold vdist. replace (vsub a c) with (vadd (vsub a b) (vsub b c)) by (apply v3_eq; cbn; ring). apply vmag_add.
Qed.
Lemma vdist_nonneg a b : 0 <= vdist a b.
Proof. apply vmag_nonneg. Qed.
Lemma vdist_refl a : vdist a a = 0.
Proof. unfold vdist, vmag. replace (vdot (vsub a a) (vsub a a)) with 0 by (unfold vdot, vsub; cbn; ring). apply sqrt_0. Qed.
Lemma vdist_sqr a b : vdist a b * vdist a b = vdot (vsub a b) (vsub a b).
Proof. apply vmag_sqr. Qed.
Lemma vdist_along p d t : vdot d d = 1 -> 0 <= t -> vdist p (along p d t) = t.
Proof.
  intros Hd Ht. unfold vdist, along. replace (vsub p (vadd p (vscale t d))) with (vscale (- t) d) by (apply v3_eq; cbn; ring).
  rewrite vmag_scale, Rabs_Ropp, (Rabs_pos_eq t Ht). unfold vmag. rewrite Hd, sqrt_1. ring.
Qed.
(** Every component is bounded by the magnitude. *)
Lemma vx_le_mag a : Rabs (vx a) <= vmag a.
Proof. apply sqr_le_le; [apply vmag_nonneg|]. rewrite vmag_sqr, <- Rabs_mult, Rabs_pos_eq by nra. unfold vdot. nra. Qed.
Lemma vy_le_mag a : Rabs (vy a) <= vmag a.
Proof. apply sqr_le_le; [apply vmag_nonneg|]. rewrite vmag_sqr, <- Rabs_mult, Rabs_pos_eq by nra. unfold vdot. nra. Qed.
Lemma vz_le_mag a : Rabs (vz a) <= vmag a.
Proof. apply sqr_le_le; [apply vmag_nonneg|]. rewrite vmag_sqr, <- Rabs_mult, Rabs_pos_eq by nra. unfold vdot. nra. Qed.
Lemma abs_le_inv x e : Rabs x <= e -> - e <= x <= e.
Proof. unfold Rabs. destruct (Rcase_abs x); lra. Qed.
