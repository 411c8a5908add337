(** C90: cut tubes. *)
From Coq Require Import Reals Lra Lia Bool ZArith Psatz.
From stdpp Require Import base list option numbers tactics.
From Verif Require Import Real3 AABBModel BoxModel PlanesModel PlanesProofs TetModel WedgeSpec ConeSpec ConeProofs TubeModel TubeSpec TubeProofs TubeProofs3 PropTube PropTube2 PlanesSpec PropPlanes CutTubeModel CutTubeSpec.
Import stdpp.list.
Local Open Scope R_scope.

(** A vector scaled to length one. *)
Definition direction (n : v3) : v3 := vscale (/ vmag n) n.
(** The cut tube with the unit normals [b] and [t]. *)
Definition cut_tube (inf m M Z s d : R) (b t : v3) : ctube :=
  CTube Z (tube_struct m M inf s d) (Plane b (Z * vz b)) (Plane t (- Z * vz t)) (cos s) (sin s) (cos (s + d)) (sin (s + d)) (Rmax M Z).
Lemma fix_clean kmin n : 0 <= kmin → 0 < vdot n n → clean kmin n → fix_zeroes (vunit kmin n) = vunit kmin n.
Proof.
  intros K N (X & Y & W). assert (T : kTolerance = / 10 ^ 9) by (unfold kTolerance; lra). rewrite <- T in *. unfold fix_zeroes, vunit. assert (S0 : 0 < R_sqrt.sqrt (vdot n n + kmin)) by (apply sqrt_lt_R0; lra). set (S := R_sqrt.sqrt (vdot n n + kmin)) in *. clearbody S.
  assert (F : ∀ c, c = 0 ∨ kTolerance * S <= Rabs c → fix1 (/ S * c) = / S * c). { intros c C. unfold fix1. destruct (rltb_spec (Rabs (/ S * c)) kTolerance) as [L|L]; [|done]. destruct C as [-> |C]; [ring|]. exfalso. rewrite Rabs_mult, (Rabs_pos_eq (/ S)) in L by (left; by apply Rinv_0_lt_compat). assert (kTolerance * S <= S * (/ S * Rabs c)) by (replace (S * (/ S * Rabs c)) with (Rabs c) by (field; lra); done). clear - H L S0. nra. }
  apply v3_eq; cbn [vscale vx vy vz]; by apply F.
Qed.
Lemma set_unit kmin n Z : 0 <= kmin → vz n ≠ 0 → clean kmin n → set_plane (vunit kmin n) (V3 0 0 Z) = Plane (direction n) (- Z * vz (direction n)).
Proof.
  intros K N C. assert (N0 : 0 < vdot n n). { unfold vdot. pose proof (Rle_0_sqr (vx n)) as Q1. pose proof (Rle_0_sqr (vy n)) as Q2. pose proof (Rsqr_pos_lt _ N) as Q3. unfold Rsqr in *. lra. }
  unfold set_plane. rewrite fix_clean by done. unfold vunit, direction. assert (S0 : 0 < R_sqrt.sqrt (vdot n n + kmin)) by (apply sqrt_lt_R0; lra). set (k := / R_sqrt.sqrt (vdot n n + kmin)). assert (K0 : 0 < k) by (by apply Rinv_0_lt_compat). clearbody k. assert (V0 : 0 < vmag n) by (by apply sqrt_lt_R0). rewrite vmag_scale, (Rabs_pos_eq k) by lra. set (v := vmag n) in *. clearbody v. cbv zeta. f_equal.
  - apply v3_eq; cbn [vscale vx vy vz]; field; lra.
  - unfold vdot. cbn [vscale vx vy vz]. field. lra.
Qed.
(** The constructors throw for normals on the wrong side and build the planes through (0, 0, -Z) and (0, 0, Z) otherwise. *)
Theorem C90_make inf kmin m M Z s d b t : 0 <= kmin → clean kmin b → clean kmin t →
  mk_ctube inf kmin m M Z s d b t = if rltb (vz b) 0 && rgtb (vz t) 0 then Some (cut_tube inf m M Z s d (direction b) (direction t)) else None.
Proof.
  intros K B T. unfold mk_ctube. destruct (rgeb_spec (vz b) 0) as [B1|B1]; destruct (rltb_spec (vz b) 0) as [B2|B2]; try lra; cbn [orb andb]; [done|]. destruct (rleb_spec (vz t) 0) as [T1|T1]; destruct (rgtb_spec (vz t) 0) as [T2|T2]; try lra; [done|].
  rewrite !set_unit by (done || lra). unfold cut_tube. do 3 f_equal. ring.
Qed.
Print Assumptions C90_make.
Lemma direction_unit n : vz n ≠ 0 → vdot (direction n) (direction n) = 1 ∧ (vz n < 0 → vz (direction n) < 0) ∧ (0 < vz n → 0 < vz (direction n)) ∧ ∀ Z x y, roof (direction n) Z x y = roof n Z x y.
Proof.
  intros N. assert (N0 : 0 < vdot n n). { unfold vdot. pose proof (Rle_0_sqr (vx n)) as Q1. pose proof (Rle_0_sqr (vy n)) as Q2. pose proof (Rsqr_pos_lt _ N) as Q3. unfold Rsqr in *. lra. }
  assert (V0 : 0 < vmag n) by (by apply sqrt_lt_R0). assert (VV : vmag n * vmag n = vdot n n) by (apply sqrt_sqrt; lra). unfold direction. split; [replace (vdot (vscale (/ vmag n) n) (vscale (/ vmag n) n)) with (vdot n n / (vmag n * vmag n)) by (unfold vdot; cbn [vscale vx vy vz]; field; lra); rewrite VV; field; lra|].
  assert (I0 : 0 < / vmag n) by (by apply Rinv_0_lt_compat). split; [intros; cbn; nra|]. split; [intros; cbn; nra|]. intros Z x y. unfold roof. cbn [vscale vx vy vz]. field. split; lra.
Qed.
(** The planes do not change when their normals are scaled, so the solid is that of the arguments. *)
Theorem C90_make_solid m M Z s d b t p : vz b ≠ 0 → vz t ≠ 0 → cut_solid m M Z s d (direction b) (direction t) p ↔ cut_solid m M Z s d b t p.
Proof. intros B T. destruct (direction_unit b B) as (_ & _ & _ & B'). destruct (direction_unit t T) as (_ & _ & _ & T'). unfold cut_solid. rewrite B', T'. done. Qed.
Print Assumptions C90_make_solid.
Section Cut.
Variables inf m M Z s d : R.
Variables b t : v3.
Hypothesis HI : 0 < inf.
Hypothesis Hm : 0 <= m < M.
Hypothesis Hd : 0 < d <= 2 * PI.
Hypothesis Ub : vdot b b = 1.
Hypothesis Ut : vdot t t = 1.
Hypothesis Hb : vz b < 0.
Hypothesis Ht : 0 < vz t.
Let c := cut_tube inf m M Z s d b t.
Lemma dist_lower p : pl_dist (ct_lower c) p = over b (- Z) p.
Proof using. unfold c, cut_tube, pl_dist, over, vdot. cbn. ring. Qed.
Lemma dist_upper p : pl_dist (ct_upper c) p = over t Z p.
Proof using. unfold c, cut_tube, pl_dist, over, vdot. cbn. ring. Qed.
Lemma over_b p : over b (- Z) p = vz b * (vz p - roof b (- Z) (vx p) (vy p)).
Proof using Hb. unfold over, roof, vdot. cbn. field. lra. Qed.
Lemma over_t p : over t Z p = vz t * (vz p - roof t Z (vx p) (vy p)).
Proof using Ht. unfold over, roof, vdot. cbn. field. lra. Qed.
Lemma over_b_le p : over b (- Z) p <= 0 ↔ roof b (- Z) (vx p) (vy p) <= vz p.
Proof using Hb. rewrite over_b. set (q := roof _ _ _ _). clearbody q. split; intros; nra. Qed.
Lemma over_t_le p : over t Z p <= 0 ↔ vz p <= roof t Z (vx p) (vy p).
Proof using Ht. rewrite over_t. set (q := roof _ _ _ _). clearbody q. split; intros; nra. Qed.
Lemma over_b_lt p : over b (- Z) p < 0 ↔ roof b (- Z) (vx p) (vy p) < vz p.
Proof using Hb. rewrite over_b. set (q := roof _ _ _ _). clearbody q. split; intros; nra. Qed.
Lemma over_t_lt p : over t Z p < 0 ↔ vz p < roof t Z (vx p) (vy p).
Proof using Ht. rewrite over_t. set (q := roof _ _ _ _). clearbody q. split; intros; nra. Qed.
(** Contains. *)
Theorem C90_contains p : Rabs (vz p) <= inf → ct_contains c p = true ↔ cut_solid m M Z s d b t p.
Proof using HI Hm Hd Hb Ht.
  intros P. unfold ct_contains, cut_contains. rewrite !andb_true_iff. rewrite dist_lower, dist_upper. change (ct_tube c) with (tube_struct m M inf s d). rewrite (C85_contains UniversalTube m M inf s d p Hm HI Hd I). unfold cut_solid, tube_solid. rewrite <- over_b_lt, <- over_t_lt. destruct (rltb_spec (over b (- Z) p) 0); destruct (rltb_spec (over t Z p) 0); (split; [intros ((? & ?) & ? & ? & ? & ?); try done; repeat split; tauto|intros ((? & ?) & ? & ? & ?); try lra; tauto]).
Qed.
(** Inside: what the classes promise and from where they are given. *)
Theorem C90_inside p : Rabs (vz p) < inf - kHalfTolerance → 2 * kTolerance <= M → m = 0 ∨ 2 * kTolerance <= m →
  let off := d < 2 * PI → sector s d (vx p) (vy p) ∧ ¬ near_line kTolerance s (vx p) (vy p) ∧ ¬ near_line kTolerance (s + d) (vx p) (vy p) in
  let i := ct_inside c p in
  (i = kInside → over b (- Z) p <= - kTolerance ∧ over t Z p <= - kTolerance ∧ rho p < M - kTolerance ∧ (0 < m → m + kHalfTolerance < rho p) ∧ off) ∧
  (over b (- Z) p <= - kTolerance → over t Z p <= - kTolerance → rho p < M - 2 * kTolerance → (0 < m → m + kTolerance < rho p) → off → i = kInside) ∧
  (i = kOutside → ¬ cut_closed m M Z s d b t p) ∧
  (kTolerance <= Rabs (over b (- Z) p) ∧ kTolerance <= over t Z p ∨ kTolerance <= over b (- Z) p ∧ kTolerance <= Rabs (over t Z p) ∨
     M + kTolerance < rho p ∨ (0 < m ∧ rho p <= m - 2 * kTolerance) ∨
     (d < 2 * PI ∧ ¬ sector s d (vx p) (vy p) ∧ ¬ near_line kTolerance s (vx p) (vy p) ∧ ¬ near_line kTolerance (s + d) (vx p) (vy p)) → i = kOutside).
Proof using HI Hm Hd Hb Ht.
  intros P HM Hm2 off i. pose proof kTolerance_pos as KT. destruct (C85_inside UniversalTube m M inf s d p Hm HI Hd I HM Hm2) as (T1 & T2 & T3 & T4). fold off in T1, T2. unfold i, ct_inside. change (ct_tube c) with (tube_struct m M inf s d). set (j := tube_inside UniversalTube (tube_struct m M inf s d) p) in *. unfold cut_inside. rewrite dist_lower, dist_upper. set (B := over b (- Z) p). set (T := over t Z p).
  assert (KH : 0 < kHalfTolerance) by (unfold kHalfTolerance; lra).
  assert (CL : cut_closed m M Z s d b t p → B <= 0 ∧ T <= 0 ∧ tube_closed m M inf s d p). { intros ((C1 & C2) & C3). split; [by apply over_b_le|]. split; [by apply over_t_le|]. split; [lra|done]. }
  assert (CI : (if rltb (Rabs B) kTolerance || rltb (Rabs T) kTolerance then kSurface else if rltb B 0 && rltb T 0 then kInside else kOutside) = kInside ↔ B <= - kTolerance ∧ T <= - kTolerance).
  { unfold Rabs. destruct (Rcase_abs B), (Rcase_abs T); repeat match goal with |- context [rltb ?x ?y] => destruct (rltb_spec x y) end; cbn [orb andb]; split; intros; try done; try lra. }
  assert (CO : (if rltb (Rabs B) kTolerance || rltb (Rabs T) kTolerance then kSurface else if rltb B 0 && rltb T 0 then kInside else kOutside) = kOutside ↔ kTolerance <= Rabs B ∧ kTolerance <= Rabs T ∧ (kTolerance <= B ∨ kTolerance <= T)).
  { unfold Rabs. destruct (Rcase_abs B), (Rcase_abs T); repeat match goal with |- context [rltb ?x ?y] => destruct (rltb_spec x y) end; cbn [orb andb]; split; intros; try done; try lra. }
  set (k := if rltb (Rabs B) kTolerance || rltb (Rabs T) kTolerance then kSurface else if rltb B 0 && rltb T 0 then kInside else kOutside) in *. clearbody k B T j.
  split; [|split; [|split]].
  - intros E. destruct k; [|by destruct j|done]. destruct (proj1 CI eq_refl) as [C1 C2]. destruct (T1 E) as (_ & T1'). tauto.
  - intros C1 C2 C3 C4 C5. rewrite (proj2 CI (conj C1 C2)). by apply T2.
  - intros E C. destruct (CL C) as (C1 & C2 & C3). destruct k; [by apply (T3 E)|destruct j; try done; by apply T3|pose proof (proj1 CO eq_refl); lra].
  - intros H. assert (H' : k = kOutside ∨ j = kOutside). { destruct H as [[H1 H2]|[[H1 H2]|H]]; [left; apply CO; pose proof (Rle_abs T); lra|left; apply CO; pose proof (Rle_abs B); lra|right; apply T4; tauto]. }
    destruct H' as [-> | ->]; [done|]. by destruct k.
Qed.
(** Where the points of the cut tube are. *)
Lemma closed_low q : cut_closed m M Z s d b t q → - Z + M / vz b <= vz q <= Z + M / vz t.
Proof using Hm Ub Ut Hb Ht.
  intros ((C1 & C2) & C3). destruct C3 as [[_ C3] _].
  assert (SL : ∀ n, vdot n n = 1 → Rabs (vx n * vx q + vy n * vy q) <= M). { intros n N. assert (R0 := rho_nonneg q). apply Rle_trans with (rho q); [|done]. unfold rho. rewrite <- sqrt_Rsqr_abs. apply sqrt_le_1_alt. unfold Rsqr. unfold vdot in N. pose proof (Rle_0_sqr (vz n)) as W. pose proof (Rle_0_sqr (vx n * vy q - vy n * vx q)) as V. pose proof (Rle_0_sqr (vx q)) as X1. pose proof (Rle_0_sqr (vy q)) as X2. unfold Rsqr in *. assert ((vx n * vx n + vy n * vy n) * (vx q * vx q + vy q * vy q) <= vx q * vx q + vy q * vy q) by nra. lra. }
  pose proof (SL b Ub) as S1. pose proof (SL t Ut) as S2. apply abs_le in S1. apply abs_le in S2. unfold roof in C1, C2. split.
  - assert ((vx b * vx q + vy b * vy q) / vz b <= - M / vz b); [|unfold Rdiv in *; lra]. unfold Rdiv. assert (/ vz b < 0) by (by apply Rinv_lt_0_compat). nra.
  - assert (- M / vz t <= (vx t * vx q + vy t * vy q) / vz t); [|unfold Rdiv in *; lra]. unfold Rdiv. assert (0 < / vz t) by (by apply Rinv_0_lt_compat). nra.
Qed.
(** SafetyToIn. *)
Theorem C90_safety_in p : Z + M / vz t <= inf → Z - M / vz b <= inf → 0 <= Z → let v := ct_safety_in inf c p in
  (∀ q, cut_closed m M Z s d b t q → v <= vdist p q) ∧ (cut_closed m M Z s d b t p → v <= 0) ∧
  over b (- Z) p <= v ∧ over t Z p <= v ∧ rho p - M <= v ∧ (0 < m → m - rho p <= v).
Proof using HI Hm Hd Ub Ut Hb Ht.
  intros F1 F2 HZ v. assert (E : v = Rmax (tube_safety_in inf UniversalTube (tube_struct m M inf s d) p) (Rmax (over b (- Z) p) (over t Z p))). { unfold v, ct_safety_in, cut_safety_in, plane_safety_in. rewrite dist_lower, dist_upper. change (ct_tube c) with (tube_struct m M inf s d). set (x := tube_safety_in _ _ _ _). set (y := Rmax _ _). destruct (rgtb_spec x y); [rewrite Rmax_left|rewrite Rmax_right]; lra. }
  destruct (C85_safety_to_in inf UniversalTube m M inf s d p Hm HI Hd I) as (T1 & T2 & T3 & T4 & T5). cbv zeta in *. set (x := tube_safety_in inf UniversalTube (tube_struct m M inf s d) p) in *.
  assert (CL : ∀ q, cut_closed m M Z s d b t q → over b (- Z) q <= 0 ∧ over t Z q <= 0 ∧ tube_closed m M inf s d q). { intros q Q. pose proof (closed_low q Q) as L. destruct Q as ((C1 & C2) & C3). split; [by apply over_b_le|]. split; [by apply over_t_le|]. split; [apply Rabs_le; lra|done]. }
  rewrite E. split; [|split].
  - intros q Q. destruct (CL q Q) as (Q1 & Q2 & Q3). apply Rmax_lub; [by apply T1|]. apply Rmax_lub.
    + pose proof (dist_lip (ct_lower c) p q) as L. cbn [c cut_tube ct_lower pl_n] in L. change (Plane b (Z * vz b)) with (ct_lower c) in L. rewrite !dist_lower in L. lra.
    + pose proof (dist_lip (ct_upper c) p q) as L. cbn [c cut_tube ct_upper pl_n] in L. change (Plane t (- Z * vz t)) with (ct_upper c) in L. rewrite !dist_upper in L. lra.
  - intros C. destruct (CL p C) as (Q1 & Q2 & Q3). apply Rmax_lub; [by apply T2|]. by apply Rmax_lub.
  - pose proof (Rmax_l x (Rmax (over b (- Z) p) (over t Z p))). pose proof (Rmax_r x (Rmax (over b (- Z) p) (over t Z p))). pose proof (Rmax_l (over b (- Z) p) (over t Z p)). pose proof (Rmax_r (over b (- Z) p) (over t Z p)). repeat split; try lra.
Qed.
(** SafetyToOut: no point off the solid is closer; not negative in the solid. *)
Theorem C90_safety_out p : Z + M / vz t <= inf → Z - M / vz b <= inf → 0 <= Z → let v := ct_safety_out c p in
  (∀ q, ¬ cut_solid m M Z s d b t q → v <= vdist p q) ∧ (cut_closed m M Z s d b t p → Rabs (vz p) <= inf → 0 <= v) ∧
  v <= - over b (- Z) p ∧ v <= - over t Z p ∧ v <= M - rho p.
Proof using HI Hm Hd Ub Ut Hb Ht.
  intros F1 F2 HZ v. assert (E : v = Rmin (tube_safety_out UniversalTube (tube_struct m M inf s d) p) (Rmin (- over b (- Z) p) (- over t Z p))). { unfold v, ct_safety_out, cut_safety_out, plane_safety_out. rewrite dist_lower, dist_upper. change (ct_tube c) with (tube_struct m M inf s d). set (x := tube_safety_out _ _ _). set (y := Rmin _ _). destruct (rltb_spec x y); [rewrite Rmin_left|rewrite Rmin_right]; lra. }
  destruct (C85_safety_to_out UniversalTube m M inf s d p Hm HI Hd I) as (T1 & T2 & T3). cbv zeta in *. set (x := tube_safety_out UniversalTube (tube_struct m M inf s d) p) in *.
  assert (XM : x <= M - rho p). { rewrite T3. pose proof (Rmin_r (inf - Rabs (vz p)) (M - rho p)) as Q1. set (a := Rmin (inf - Rabs (vz p)) (M - rho p)) in *. assert (Q2 : (if rgtb m 0 then Rmin a (rho p - m) else a) <= a) by (destruct (rgtb m 0); [apply Rmin_l|lra]). set (e := if rgtb m 0 then Rmin a (rho p - m) else a) in *. clearbody e a. destruct (rltb d PI); [|destruct (rltb d (2 * PI))]; try (apply Rle_trans with e; [apply Rmin_l|lra]); lra. }
  pose proof (Rmin_l x (Rmin (- over b (- Z) p) (- over t Z p))) as M1. pose proof (Rmin_r x (Rmin (- over b (- Z) p) (- over t Z p))) as M2. pose proof (Rmin_l (- over b (- Z) p) (- over t Z p)) as M3. pose proof (Rmin_r (- over b (- Z) p) (- over t Z p)) as M4. rewrite E. split; [|split; [|lra]].
  - intros q Q. destruct (Rlt_le_dec (over b (- Z) q) 0) as [B|B]; [destruct (Rlt_le_dec (over t Z q) 0) as [T|T]|].
    + apply Rle_trans with x; [done|]. destruct (Rle_dec (Rabs (vz q)) inf) as [L|L].
      * apply T1. intros TS. apply Q. destruct TS as (_ & TS). split; [split; [by apply over_b_lt|by apply over_t_lt]|done].
      * apply T1. intros TS. by destruct TS.
    + pose proof (dist_lip (ct_upper c) q p) as L. cbn [c cut_tube ct_upper pl_n] in L. change (Plane t (- Z * vz t)) with (ct_upper c) in L. rewrite !dist_upper in L. rewrite vdist_sym in L || idtac. specialize (L ltac:(lra)). rewrite vdist_comm in L || idtac. lra.
    + pose proof (dist_lip (ct_lower c) q p) as L. cbn [c cut_tube ct_lower pl_n] in L. change (Plane b (Z * vz b)) with (ct_lower c) in L. rewrite !dist_lower in L. specialize (L ltac:(lra)). rewrite vdist_sym in L || idtac. rewrite vdist_comm in L || idtac. lra.
  - intros ((C1 & C2) & C3) P. apply over_b_le in C1. apply over_t_le in C2. apply Rmin_glb; [apply T2; by split|]. apply Rmin_glb; lra.
Qed.
(** A ray from [p] against the plane through (0, 0, h): going below; not almost within the plane; or along the plane and not on it
    ([L] bounds the answers). *)
Definition facing (L : R) (n : v3) (h : R) (p dir : v3) : Prop := vdot n dir < 0 ∨ kAbsorb <= vdot n dir ∨ (vdot n dir = 0 ∧ L * kTiny < - over n h p).
Lemma plane_out L n h p dir : 0 <= L → facing L n h p dir → over n h p <= 0 → let pl := Plane n (- h * vz n) in let D := plane_to_out inf pl p dir in
  0 <= D ∧ (∀ u, 0 <= u <= D → pl_dist pl (along p dir u) <= 0) ∧ (inf <= D ∨ L < D ∨ ∀ u, D < u → 0 < pl_dist pl (along p dir u)).
Proof using HI.
  intros HL F P pl. assert (EO : over n h p = pl_dist pl p) by (unfold over, pl, pl_dist, vdot; cbn; ring). unfold facing in F. rewrite EO in *. destruct (C48_plane_to_out inf pl p dir) as (A & B & _). assert (HH : ∀ q, height (pl_n pl) (pl_d pl) q = pl_dist pl q) by (intros q; exact (height_dist pl q)). change (pl_n pl) with n in *. change (pl_d pl) with (- h * vz n) in *. rewrite HH in *. destruct F as [F|[F|(F & N)]].
  - rewrite (B P F). split; [lra|]. split; [|left; lra]. intros u U. rewrite dist_along. unfold pl_proj. change (pl_n pl) with n. rewrite vdot_comm. clear - P F U. nra.
  - destruct (A P F) as (A1 & A2 & A3). split; [done|]. split; [intros u U; rewrite <- HH; apply A2; lra|]. right; right. intros u U. rewrite <- HH. by apply A3.
  - assert (EP : pl_proj pl dir = 0) by (unfold pl_proj; change (pl_n pl) with n; by rewrite vdot_comm). pose proof kTiny_pos as KT. pose proof kTolerance_pos as KP. assert (N0 : pl_dist pl p < 0) by (assert (0 <= L * kTiny) by (apply Rmult_le_pos; lra); lra).
    assert (ED : plane_to_out inf pl p dir = - pl_dist pl p / kTiny). { unfold plane_to_out. cbv zeta. rewrite EP, nz_zero. destruct (rgtb_spec kTiny 0); [|lra]. destruct (rltb_spec (pl_dist pl p) kTolerance); [|lra]. done. }
    cbv zeta. rewrite ED. split; [left; apply Rdiv_lt_0_compat; lra|]. split; [intros u _; rewrite dist_along, EP; lra|]. right; left. apply (Rmult_lt_reg_r kTiny); [done|]. replace (- pl_dist pl p / kTiny * kTiny) with (- pl_dist pl p) by (field; lra). done.
Qed.
(** DistanceToOut from the points of the cut tube and its border: the ray stays up to the answer and leaves right after. *)
Theorem C90_to_out p dir : 0 <= Z → let size := 2 * M + 2 * Z + M / vz t - M / vz b in size < inf → cut_closed m M Z s d b t p → vdot dir dir = 1 → facing size b (- Z) p dir → facing size t Z p dir →
  sound (vz dir) → sound (1 - vz dir * vz dir) → (d < 2 * PI → sound (side s (vx dir) (vy dir)) ∧ sound (side (s + d) (vx dir) (vy dir))) →
  (0 < m → m + 2 * kTolerance < rho p ∨ vx dir * vx p + vy dir * vy p <= 0) → vx dir ≠ 0 ∨ vy dir ≠ 0 →
  (PI < d < 2 * PI → (0 <= side s (vx p) (vy p) ∨ side s (vx p) (vy p) <= - kHalfTolerance) ∧ (side (s + d) (vx p) (vy p) <= 0 ∨ kHalfTolerance <= side (s + d) (vx p) (vy p)) ∧
     (m = 0 → ∀ u, rho (along p dir u) ≠ 0)) →
  let D := ct_to_out inf c p dir in
  0 <= D < inf ∧ (∀ u, 0 <= u <= D → cut_closed m M Z s d b t (along p dir u)) ∧ (∀ e, 0 < e → ∃ u, D < u < D + e ∧ ¬ cut_closed m M Z s d b t (along p dir u)).
Proof using HI Hm Hd Ub Ut Hb Ht.
  intros HZ size Big C U Fb Ft Sz Sn Ss Sh Sa Sw D. assert (Q1 : 0 < M / vz t) by (apply Rdiv_lt_0_compat; lra). assert (Q2 : 0 < - (M / vz b)). { replace (- (M / vz b)) with (M / - vz b) by (field; lra). apply Rdiv_lt_0_compat; lra. }
  assert (TC : ∀ q, cut_closed m M Z s d b t q → tube_closed m M inf s d q). { intros q Q. pose proof (closed_low q Q) as L. destruct Q as (_ & Q). split; [apply Rabs_le; unfold size in Big; lra|done]. }
  assert (CC : ∀ q, pl_dist (ct_lower c) q <= 0 → pl_dist (ct_upper c) q <= 0 → tube_closed m M inf s d q → cut_closed m M Z s d b t q). { intros q L1 L2 (_ & L3). rewrite dist_lower in L1. rewrite dist_upper in L2. apply over_b_le in L1. apply over_t_le in L2. done. }
  assert (CP : ∀ q, cut_closed m M Z s d b t q → pl_dist (ct_lower c) q <= 0 ∧ pl_dist (ct_upper c) q <= 0). { intros q ((L1 & L2) & _). rewrite dist_lower, dist_upper. split; [by apply over_b_le|by apply over_t_le]. }
  destruct (CP p C) as [P1 P2]. rewrite dist_lower in P1. rewrite dist_upper in P2. assert (SZ : 0 <= size) by (unfold size; lra). destruct (plane_out size b (- Z) p dir SZ Fb P1) as (B1 & B2 & B3). destruct (plane_out size t Z p dir SZ Ft P2) as (T1 & T2 & T3). rewrite Ropp_involutive in B1, B2, B3. change (Plane b (Z * vz b)) with (ct_lower c) in *. change (Plane t (- Z * vz t)) with (ct_upper c) in *.
  set (Db := plane_to_out inf (ct_lower c) p dir) in *. set (Dt := plane_to_out inf (ct_upper c) p dir) in *.
  set (inf' := 2 ^ 24 * M + 2 * inf + 1). assert (I1 : 2 ^ 24 * M + 2 * inf < inf') by (unfold inf'; lra). assert (I2 : inf < inf') by (unfold inf'; assert (0 <= 2 ^ 24 * M) by (apply Rmult_le_pos; lra); lra).
  assert (TP := TC p C). destruct (C85_to_out inf' UniversalTube m M inf s d p dir) as (V1 & V2 & V3); try done; [intros; exfalso; tauto|]. cbv zeta in V1, V2, V3.
  set (Dv := tube_to_out inf' UniversalTube (tube_struct m M inf s d) p dir) in *. set (Dw := tube_to_out inf UniversalTube (tube_struct m M inf s d) p dir).
  assert (EW : Dw = Rmin inf Dv). { unfold Dw, Dv. rewrite tube_struct_eq by tauto. destruct (to_out_least inf UniversalTube m M inf s d Hm HI Hd I p dir TP) as (L1 & L2 & L3). destruct (to_out_least inf' UniversalTube m M inf s d Hm HI Hd I p dir TP) as (K1 & K2 & K3). set (x := tube_to_out inf UniversalTube (tb m M inf s d) p dir) in *. set (y := tube_to_out inf' UniversalTube (tb m M inf s d) p dir) in *. clearbody x y. destruct K3 as [K3|K3]; [rewrite Rmin_left by lra; destruct L3 as [L3|L3]; [done|]; specialize (K1 _ L3); lra|]. specialize (L1 _ K3). destruct L3 as [L3|L3]; [rewrite Rmin_left; lra|]. specialize (K1 _ L3). rewrite Rmin_right; lra. }
  assert (ED : D = Rmin Dw (Rmin Db Dt)). { unfold D, ct_to_out, cut_to_out. cbv zeta. change (ct_tube c) with (tube_struct m M inf s d). fold Db Dt Dw. set (y := Rmin Db Dt). destruct (rltb_spec Dw y); [rewrite Rmin_left|rewrite Rmin_right]; lra. }
  assert (LE : D <= inf ∧ D <= Dv ∧ D <= Db ∧ D <= Dt ∧ (D = inf ∨ D = Dv ∨ D = Db ∨ D = Dt)). { rewrite ED, EW. unfold Rmin. repeat destruct (Rle_dec _ _); lra. }
  destruct LE as (E0 & E1 & E2 & E3 & E4). assert (D0 : 0 <= D) by (rewrite ED, EW; unfold Rmin; repeat destruct (Rle_dec _ _); lra). clearbody D. clear ED EW.
  assert (ST : ∀ u, 0 <= u <= D → cut_closed m M Z s d b t (along p dir u)) by (intros u Hu; apply CC; [apply B2; lra|apply T2; lra|apply V2; lra]).
  assert (DF : D <= size).
  { pose proof (ST D ltac:(lra)) as SD. pose proof (closed_low _ SD) as L1. pose proof (closed_low _ C) as L2. destruct SD as (_ & (_ & S1) & _). destruct C as (_ & (_ & S2) & _). pose proof (rho_nonneg p) as N1. pose proof (rho_nonneg (along p dir D)) as N2. pose proof (r2_rho p) as R1. pose proof (r2_rho (along p dir D)) as R2. unfold vdot in U.
    set (r1 := rho p) in *. set (r2 := rho (along p dir D)) in *. clearbody r2. unfold along, vadd, vscale in R2, L1. cbn [vx vy vz] in R2, L1. set (H := 2 * Z + M / vz t - M / vz b). assert (HH : - H <= D * vz dir <= H) by (unfold H; lra). clearbody r1. assert (HB : size = 2 * M + H) by (unfold H, size; lra). clearbody H. rewrite HB.
    assert (F : D * D * (vx dir * vx dir + vy dir * vy dir) <= 4 * (M * M)). { assert (A1 : r1 * r1 <= M * M) by (apply Rmult_le_compat; lra). assert (A2 : r2 * r2 <= M * M) by (apply Rmult_le_compat; lra). pose proof (Rle_0_sqr (2 * vx p + D * vx dir)) as Z1. pose proof (Rle_0_sqr (2 * vy p + D * vy dir)) as Z2. unfold Rsqr in *. lra. }
    assert (G : D * D <= 4 * (M * M) + H * H). { assert (D * vz dir * (D * vz dir) <= H * H) by (clear - HH; nra). assert (D * D = D * D * (vx dir * vx dir + vy dir * vy dir) + D * vz dir * (D * vz dir)); [|lra]. replace (D * D) with (D * D * (vx dir * vx dir + vy dir * vy dir + vz dir * vz dir)) at 1 by (rewrite U; ring). ring. }
    apply Rnot_lt_le. intros X. assert (H0 : 0 <= H) by lra. assert (HM : 0 < M) by lra. assert (X2 : (2 * M + H) * (2 * M + H) < D * D) by (apply Rmult_le_0_lt_compat; lra). assert (0 <= M * H) by (apply Rmult_le_pos; lra). clear - X2 G H1. lra. }
  split; [lra|]. split; [done|]. intros e He. destruct E4 as [E4|[E4|[E4|E4]]]; [lra| | |].
  - rewrite <- E4 in V3. destruct (V3 e He) as (u & Hu & N). exists u. split; [done|]. intros K. apply N. by apply TC.
  - exists (D + e / 2). split; [lra|]. intros K. destruct (CP _ K) as [K1 _]. destruct B3 as [B3|[B3|B3]]; [lra|lra|]. specialize (B3 (D + e / 2) ltac:(lra)). lra.
  - exists (D + e / 2). split; [lra|]. intros K. destruct (CP _ K) as [_ K1]. destruct T3 as [T3|[T3|T3]]; [lra|lra|]. specialize (T3 (D + e / 2) ltac:(lra)). lra.
Qed.
End Cut.
Print Assumptions C90_contains.
Print Assumptions C90_inside.
Print Assumptions C90_safety_in.
Print Assumptions C90_safety_out.
Print Assumptions C90_to_out.
(** From the axis along x, parallel to the lower lid and below the upper one, to the wall. *)
Example cut_leaves : ct_to_out 100 (cut_tube 100 0 2 4 0 (2 * PI) (V3 0 0 (-1)) (V3 (4 / 5) 0 (3 / 5))) (V3 0 0 0) (V3 1 0 0) = 2.
Proof.
  pose proof PI_RGT_0. pose proof kTiny_pos as KT. assert (K1 : kTiny <= 1 / 1000) by (unfold kTiny; lra). destruct pipe_dir as (P1 & P2 & P3). assert (KA : kAbsorb <= 1 / 2) by (unfold kAbsorb; replace (1 / 2) with (/ 2) by lra; apply Rinv_le_contravar; lra).
  set (b := V3 0 0 (-1)). set (t := V3 (4 / 5) 0 (3 / 5)). assert (RX : ∀ x, 0 <= x → rho (V3 x 0 0) = x) by (intros x X; by apply axis_rho).
  destruct (C90_to_out 100 0 2 4 0 (2 * PI) b t) with (p := V3 0 0 0) (dir := V3 1 0 0) as (A & B & C); try done; try (unfold vdot, b, t; cbn [vx vy vz]; lra).
  - split; [unfold roof, b, t; cbn [vx vy vz]; lra|]. rewrite RX by lra. split; [lra|intros; lra].
  - right; right. unfold over, vdot, b, t. cbn. split; lra.
  - right; left. unfold vdot, t. cbn. lra.
  - cbv zeta in A, B, C. set (D := ct_to_out _ _ _ _) in *. clearbody D. apply Rle_antisym.
    + destruct (B D ltac:(lra)) as (_ & (_ & B1) & _). rewrite along_x, Rplus_0_l, RX in B1 by lra. done.
    + apply Rnot_lt_le. intros L. destruct (C (2 - D) ltac:(lra)) as (u & U & N). apply N. rewrite along_x, Rplus_0_l. split; [unfold roof, b, t; cbn [vx vy vz]; lra|]. rewrite RX by lra. split; [lra|intros; lra].
Qed.
