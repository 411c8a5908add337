(** C85: what the setters of the angles do to safeties, and rays that start on a wall of a tube. *)
From Coq Require Import Reals Lra Lia Bool ZArith Psatz.
From stdpp Require Import base list option numbers tactics.
From Verif Require Import Real3 AABBModel BoxModel BoxProofs PlanesModel PlanesProofs ConeModel ConeSpec ConeProofs WedgeModel WedgeSpec WedgeProofs WedgeProofs2 TetModel TrdModel TubeModel TubeSpec TubeProofs TubeProofs5 PropTube3.
Import stdpp.list.
Local Open Scope R_scope.

(** SetSPhi: the safety to the tube follows the new start angle (Contains and Inside keep the old one, C85_set_sphi_stale). *)
Theorem C85_set_sphi_safety inf k m M Z s d s' p : 0 <= m →
  tube_safety_in inf k (set_sphi (tube_struct m M Z s d) s') p = tube_safety_in inf k (tube_struct m M Z (checked_sphi d s') d) p.
Proof. intros H. by rewrite !tube_struct_eq by done. Qed.
Print Assumptions C85_set_sphi_safety.
(** SetDPhi with less than a turn: the safety to the tube follows the new width. *)
Theorem C85_set_dphi_safety inf k m M Z s d d' p : 0 <= m → 0 < d' < 2 * PI - 5 / 10 * / 1000000000 →
  tube_safety_in inf k (set_dphi (tube_struct m M Z s d) d') p = tube_safety_in inf k (tube_struct m M Z s d') p.
Proof.
  intros H Hd. rewrite !tube_struct_eq by done. unfold set_dphi. destruct (rgeb_spec d' (2 * PI - 5 / 10 * / 1000000000)) as [L|_]; [lra|]. destruct (rgtb_spec d' 0) as [_|L]; [|lra]. reflexivity.
Qed.
Print Assumptions C85_set_dphi_safety.

Section Skin.
Variables m M Z s d : R.
Hypothesis Hm : 0 <= m.
Hypothesis HM : m + 2 * kTolerance <= M.
Hypothesis HZ : 0 < Z.
Hypothesis Hd : 0 < d <= 2 * PI.
Variable k : tube_type.
Hypothesis Hk : tube_fits k m d.
Variables (inf : R) (p v : v3).
(** The ray does not come from beyond an end, is not far away, and starts in the sector with its tolerance. *)
Hypothesis Hz : 0 <= vz p * vz v.
Hypothesis Hin : Rabs (vz p) <= Z.
Hypothesis Hfar : vmag p <= 100 * Rmax M Z.
Hypothesis Hs : d < 2 * PI → wide_sector kHalfTolerance s d (vx p) (vy p).
Let t := tube_struct m M Z s d.
Let te : t = tb m M Z s d := tube_struct_eq m M Z s d Hm.
(** On the outer wall, moving towards the axis: the distance is 0. *)
Theorem C85_to_in_outer_wall : M - kHalfTolerance <= rho p <= M + kHalfTolerance → vx p * vx v + vy p * vy v < 0 → tube_to_in inf k t p v = 0.
Proof using Hm HM HZ Hd Hk Hz Hin Hfar Hs.
  intros Hr Hv. destruct small_numbers as (KT & KH & _).
  assert (KE : kTolerance = 2 * kHalfTolerance) by lra. assert (HmM : 0 <= m < M) by lra.
  pose proof (r2_rho p) as RR. pose proof (rho_nonneg p) as R0.
  unfold tube_to_in. rewrite te. cbn [tb tb_max]. destruct (rgtb_spec (vmag p) (100 * Rmax M Z)) as [L|_]; [lra|]. cbn [negb]. rewrite Rplus_0_r. fold (tb m M Z s d).
  unfold tube_to_in_kernel. rewrite (phi_eq k m M Z s d HmM HZ Hd Hk), (hole_eq k m M Z s d HmM HZ Hd Hk). cbn [tb tb_z tb_Irmax2 tb_Irmin2 tb_rmax2 tb_rmin2].
  fold (tb m M Z s d).
  destruct (rgtb_spec (Rabs (vz p) - Z) kHalfTolerance) as [L|_]; [lra|]. cbn [andb orb].
  destruct (rgeb_spec (vx p * vx v + vy p * vy v) 0) as [L|_]; [lra|]. rewrite andb_false_r.
  destruct (rltb_spec (vx p * vx p + vy p * vy p) ((M - kHalfTolerance) * (M - kHalfTolerance))) as [L|_]; [exfalso; rewrite RR in L; clear - L Hr HM Hm KT KH KE; nra|]. rewrite andb_false_r. cbn [andb].
  destruct (rltb_spec (vz p * vz v) 0) as [L|_]; [lra|]. rewrite andb_false_r. cbn [andb].
  assert (MV : moving_inside (tb m M Z s d) false p v = true).
  { unfold moving_inside, on_tube, tube_norm, vdot. cbn [tb tb_Irmax2 tb_Ormax2 tb_z vx vy vz]. rewrite RR. rewrite !andb_true_iff, !rgeb_true, !rleb_true, rltb_true. repeat split; try lra; clear - R0 Hr HM Hm KT KH KE; nra. }
  rewrite MV. cbn [orb andb].
  destruct (rltb_spec d (2 * PI)) as [D|D]; [|done]. cbn [negb orb].
  by rewrite (proj2 (sector_test k m M Z s d HmM HZ Hd Hk _ _ D) (Hs D)).
Qed.
(** On the inner wall, not moving towards the axis: the distance is 0. *)
Theorem C85_to_in_inner_wall : kTolerance <= m → m - kHalfTolerance <= rho p <= m + kHalfTolerance → 0 <= vx p * vx v + vy p * vy v → tube_to_in inf k t p v = 0.
Proof using Hm HM HZ Hd Hk Hz Hin Hfar Hs.
  intros Hp Hr Hv. destruct small_numbers as (KT & KH & _).
  assert (KE : kTolerance = 2 * kHalfTolerance) by lra. assert (HmM : 0 <= m < M) by lra.
  pose proof (r2_rho p) as RR. pose proof (rho_nonneg p) as R0.
  unfold tube_to_in. rewrite te. cbn [tb tb_max]. destruct (rgtb_spec (vmag p) (100 * Rmax M Z)) as [L|_]; [lra|]. cbn [negb]. rewrite Rplus_0_r. fold (tb m M Z s d).
  unfold tube_to_in_kernel. rewrite (phi_eq k m M Z s d HmM HZ Hd Hk), (hole_eq k m M Z s d HmM HZ Hd Hk). cbn [tb tb_z tb_Irmax2 tb_Irmin2 tb_rmax2 tb_rmin2].
  fold (tb m M Z s d).
  destruct (rgtb_spec (Rabs (vz p) - Z) kHalfTolerance) as [L|_]; [lra|]. cbn [andb orb].
  destruct (rgtb_spec (vx p * vx p + vy p * vy p) ((M - kHalfTolerance) * (M - kHalfTolerance))) as [L|_]; [exfalso; rewrite RR in L; clear - L R0 Hr HM Hm KT KH KE; nra|]. cbn [andb].
  destruct (rgtb_spec m 0) as [_|L]; [|lra]. cbn [negb orb].
  destruct (rgtb_spec (vx p * vx p + vy p * vy p) ((m + kHalfTolerance) * (m + kHalfTolerance))) as [L|_]; [exfalso; rewrite RR in L; clear - L R0 Hr HM Hm KT KH KE; nra|]. rewrite andb_false_r. cbn [andb].
  destruct (rltb_spec (vz p * vz v) 0) as [L|_]; [lra|]. rewrite andb_false_r. cbn [andb].
  assert (MV : moving_inside (tb m M Z s d) true p v = true).
  { unfold moving_inside, on_tube, tube_norm, vdot. cbn [tb tb_Irmin2 tb_Ormin2 tb_z vx vy vz]. rewrite RR. rewrite !andb_true_iff, !rgeb_true, !rleb_true, rltb_true. repeat split; try lra; clear - R0 Hr HM Hm Hp KT KH KE; nra. }
  rewrite MV, orb_true_r. cbn [orb andb].
  destruct (rltb_spec d (2 * PI)) as [D|D]; [|done]. cbn [negb orb].
  by rewrite (proj2 (sector_test k m M Z s d HmM HZ Hd Hk _ _ D) (Hs D)).
Qed.
End Skin.
Print Assumptions C85_to_in_outer_wall.
Print Assumptions C85_to_in_inner_wall.
(** A full pipe with radii 1 and 3: straight in from the outer wall, straight out from the inner wall. *)
Example walls inf : tube_to_in inf UniversalTube (tube_struct 1 3 2 0 (2 * PI)) (V3 3 0 0) (V3 (-1) 0 0) = 0 ∧
  tube_to_in inf UniversalTube (tube_struct 1 3 2 0 (2 * PI)) (V3 1 0 0) (V3 1 0 0) = 0.
Proof.
  pose proof PI_RGT_0. destruct small_numbers as (KT & KH & _). assert (K1 : kTolerance <= 1 / 100) by (unfold kTolerance; lra).
  assert (R3 : rho (V3 3 0 0) = 3) by (unfold rho; cbn [vx vy]; replace (3 * 3 + 0 * 0) with (3 * 3) by ring; apply sqrt_square; lra).
  assert (R1 : rho (V3 1 0 0) = 1) by (unfold rho; cbn [vx vy]; replace (1 * 1 + 0 * 0) with (1 * 1) by ring; apply sqrt_square; lra).
  assert (M3 : vmag (V3 3 0 0) = 3) by (unfold vmag, vdot; cbn [vx vy vz]; replace (3 * 3 + 0 * 0 + 0 * 0) with (3 * 3) by ring; apply sqrt_square; lra).
  assert (M1 : vmag (V3 1 0 0) = 1) by (unfold vmag, vdot; cbn [vx vy vz]; replace (1 * 1 + 0 * 0 + 0 * 0) with (1 * 1) by ring; apply sqrt_square; lra).
  assert (MX : Rmax 3 2 = 3) by (apply Rmax_left; lra).
  split.
  - apply C85_to_in_outer_wall; rewrite ?R3, ?M3, ?MX; cbn [vx vy vz]; rewrite ?Rabs_R0; try lra; done.
  - apply C85_to_in_inner_wall; rewrite ?R1, ?M1, ?MX; cbn [vx vy vz]; rewrite ?Rabs_R0; try lra; done.
Qed.
(** Half a tube whose start is set to a quarter turn: the safety is the one of the turned half. *)
Example turned inf p : tube_safety_in inf UniversalTube (set_sphi (tube_struct 1 3 2 0 PI) (PI / 2)) p = tube_safety_in inf UniversalTube (tube_struct 1 3 2 (PI / 2) PI) p.
Proof.
  pose proof PI_RGT_0. rewrite C85_set_sphi_safety by lra. f_equal. f_equal. pose proof (checked_sphi_range PI (PI / 2) ltac:(lra)) as [L U]. destruct (checked_sphi_turns PI (PI / 2)) as [n E]. rewrite E in *.
  assert (n = 0%Z) as ->; [|lra]. assert (A : IZR n < 1) by nra. assert (B : -1 < IZR n) by nra. apply lt_IZR in A. apply (lt_IZR (-1)) in B. lia.
Qed.
