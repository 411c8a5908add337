(** The kernels of trapezoids by the largest of six heights. *)
From Coq Require Import Reals Lra Lia Bool Psatz.
From stdpp Require Import base list option numbers tactics.
From Verif Require Import Real3 BoxModel AABBModel PlanesModel PlanesSpec PlanesProofs PlanesProofs2 PlanesProofs3 TrapModel TrapSpec TrapProofs.
Import stdpp.list.
Local Open Scope R_scope.

Lemma rsign_mul x : rsign x * x = Rabs x.
Proof. unfold rsign. destruct (rltb_spec x 0); [rewrite Rabs_left by lra|rewrite Rabs_pos_eq by lra]; lra. Qed.
Lemma rsign_abs_le x y : rsign x * y <= Rabs y.
Proof. unfold rsign. destruct (rltb_spec x 0); [rewrite <- Rabs_Ropp|]; pose proof (Rle_abs (- y)); pose proof (Rle_abs y); lra. Qed.
Lemma rsign_cases x : (x < 0 ∧ rsign x = -1) ∨ (0 <= x ∧ rsign x = 1).
Proof. unfold rsign. destruct (rltb_spec x 0); [left|right]; split; lra. Qed.
Lemma nz_neg_eq x : x < 0 → nz (- x) = - nz x.
Proof.
  intros H. unfold nz, nonzero. rewrite Rabs_Ropp. destruct (rgeb_spec (Rabs x) kAbsorb); [lra|].
  destruct (rltb_spec x 0); [|lra]. destruct (rltb_spec (- x) 0); lra.
Qed.
(** The four planes and the two z planes. *)
Section Six.
Variables (inf : R) (t : trap).
Let dz := tz_dz t.
Definition six_of : list plane := tz_planes t ++ z_planes dz.
Definition top_height (p : v3) : R := trap_safety_in t p.
Lemma z_dist p : pl_dist (Plane (V3 0 0 1) (- dz)) p = vz p - dz ∧ pl_dist (Plane (V3 0 0 (-1)) (- dz)) p = - vz p - dz.
Proof using. unfold pl_dist, vdot. cbn. split; lra. Qed.
Lemma top_spec p : (∀ pl, In pl six_of → pl_dist pl p <= top_height p) ∧ ∃ pl, In pl six_of ∧ pl_dist pl p = top_height p.
Proof using.
  unfold top_height, trap_safety_in. fold dz. destruct (shell_safety_in_max (tz_planes t) p (Rabs (vz p) - dz)) as (A & B & C).
  set (m := shell_safety_in _ _ _) in *. destruct (z_dist p) as [Z1 Z2]. unfold six_of. split.
  - intros pl Hi. apply in_app_or in Hi as [Hi|[<-|[<-|[]]]]; [specialize (B _ Hi); lra|rewrite Z1|rewrite Z2].
    + pose proof (Rle_abs (vz p)). lra.
    + pose proof (Rle_abs (- vz p)). rewrite Rabs_Ropp in H. lra.
  - destruct C as [C|(pl & Hi & C)]; [|exists pl; split; [apply in_or_app; auto|lra]].
    destruct (Rle_dec 0 (vz p)) as [H|H].
    + exists (Plane (V3 0 0 1) (- dz)). split; [apply in_or_app; right; left; done|]. rewrite Z1, C, Rabs_pos_eq; lra.
    + exists (Plane (V3 0 0 (-1)) (- dz)). split; [apply in_or_app; right; right; left; done|]. rewrite Z2, C, Rabs_left; lra.
Qed.
Lemma top_le p r : top_height p <= r ↔ ∀ pl, In pl six_of → pl_dist pl p <= r.
Proof using.
  destruct (top_spec p) as (A & pl & Hi & B). split; [intros H q Hq; specialize (A _ Hq); lra|]. intros H. specialize (H _ Hi). lra.
Qed.
Lemma top_lt p r : top_height p < r ↔ ∀ pl, In pl six_of → pl_dist pl p < r.
Proof using.
  destruct (top_spec p) as (A & pl & Hi & B). split; [intros H q Hq; specialize (A _ Hq); lra|]. intros H. specialize (H _ Hi). lra.
Qed.
Lemma all_six (Q : R → Prop) p : (∀ pl, In pl six_of → Q (pl_dist pl p)) ↔ (∀ pl, In pl (tz_planes t) → Q (pl_dist pl p)) ∧ Q (vz p - dz) ∧ Q (- vz p - dz).
Proof using.
  destruct (z_dist p) as [Z1 Z2]. unfold six_of. split.
  - intros H. split; [intros; apply H, in_or_app; auto|]. rewrite <- Z1, <- Z2. split; apply H, in_or_app; right; cbn; auto.
  - intros (H & H1 & H2) pl Hi. apply in_app_or in Hi as [Hi|[<-|[<-|[]]]]; [auto|by rewrite Z1|by rewrite Z2].
Qed.
Lemma contains_top p : trap_contains t p = true ↔ top_height p <= 0.
Proof using.
  unfold trap_contains, trap_kernel. rewrite shell_kernel_spec. cbn [snd]. fold dz. rewrite negb_true_iff, orb_false_iff. rewrite top_le, (all_six (λ x, x <= 0)).
  destruct (rgtb_spec (Rabs (vz p)) dz) as [H|H].
  - split; [intros [[=] _]|]. intros (_ & H1 & H2). exfalso. assert (Rabs (vz p) <= dz) by (apply Rabs_le; lra). lra.
  - assert (H' : Rabs (vz p) <= dz) by lra. apply abs_le_inv in H'. split.
    + intros [_ K]. split; [|lra]. intros pl Hi. destruct (Rle_dec (pl_dist pl p) 0) as [|N]; [done|]. exfalso.
      assert (existsb (λ pl, rgtb (pl_dist pl p) 0) (tz_planes t) = true); [|congruence]. apply existsb_exists. exists pl. split; [done|].
      destruct (rgtb_spec (pl_dist pl p) 0); [done|lra].
    + intros (K & _). split; [done|]. destruct (existsb _ _) eqn:Ex; [|done]. exfalso. apply existsb_exists in Ex as (pl & Hi & G). specialize (K _ Hi).
      destruct (rgtb_spec (pl_dist pl p) 0); [lra|done].
Qed.
Lemma inside_top p : trap_inside t p =
  if rltb (top_height p) (- kHalfTolerance) then kInside else if rgtb (top_height p) kHalfTolerance then kOutside else kSurface.
Proof using.
  pose proof kHalfTolerance_pos as Hh. unfold trap_inside, trap_kernel. rewrite shell_kernel_spec. fold dz.
  set (ci := rltb (Rabs (vz p)) (dz - kHalfTolerance) && _). set (co := rgtb (Rabs (vz p)) (dz + kHalfTolerance) || _).
  assert (Ei : ci = rltb (top_height p) (- kHalfTolerance)).
  { apply eq_true_iff_eq. rewrite rltb_true, top_lt, (all_six (λ x, x < - kHalfTolerance)). unfold ci. rewrite andb_true_iff, forallb_forall, rltb_true. split.
    - intros [H K]. apply Rabs_def2 in H. split; [|lra]. intros pl Hi. specialize (K _ Hi). apply rltb_true in K. lra.
    - intros (K & H1 & H2). split; [apply Rabs_def1; lra|]. intros pl Hi. apply rltb_true. specialize (K _ Hi). cbn beta in K. lra. }
  assert (Eo : co = rgtb (top_height p) kHalfTolerance).
  { destruct co eqn:C.
    - symmetry. destruct (rgtb_spec (top_height p) kHalfTolerance) as [|N]; [done|]. exfalso. assert (N' : top_height p <= kHalfTolerance) by lra.
      rewrite top_le, (all_six (λ x, x <= kHalfTolerance)) in N'. destruct N' as (K & H1 & H2). unfold co in C. apply orb_true_iff in C as [C|C].
      + destruct (rgtb_spec (Rabs (vz p)) (dz + kHalfTolerance)) as [G|]; [|done]. assert (Rabs (vz p) <= dz + kHalfTolerance) by (apply Rabs_le; lra). lra.
      + apply existsb_exists in C as (pl & Hi & C). specialize (K _ Hi). cbn beta in K. destruct (rgtb_spec (pl_dist pl p) (0 + kHalfTolerance)); [lra|done].
    - symmetry. destruct (rgtb_spec (top_height p) kHalfTolerance) as [G|]; [|done]. exfalso. assert (top_height p <= kHalfTolerance); [|lra].
      apply top_le, (all_six (λ x, x <= kHalfTolerance)). unfold co in C. apply orb_false_iff in C as [C1 C2].
      destruct (rgtb_spec (Rabs (vz p)) (dz + kHalfTolerance)) as [|C1']; [done|]. assert (C1'' : Rabs (vz p) <= dz + kHalfTolerance) by lra.
      apply abs_le_inv in C1''. split; [|lra]. intros pl Hi. destruct (Rle_dec (pl_dist pl p) kHalfTolerance) as [|N]; [done|]. exfalso.
      assert (existsb (λ pl, rgtb (pl_dist pl p) (0 + kHalfTolerance)) (tz_planes t) = true); [|congruence]. apply existsb_exists. exists pl. split; [done|].
      destruct (rgtb_spec (pl_dist pl p) (0 + kHalfTolerance)); [done|lra]. }
  cbv zeta. rewrite Ei, Eo. destruct (rltb_spec (top_height p) (- kHalfTolerance)); done.
Qed.
Lemma safety_out_top p : trap_safety_out t p = - top_height p.
Proof using.
  unfold trap_safety_out. fold dz. destruct (shell_safety_out_min (tz_planes t) p (dz - Rabs (vz p))) as (A & B & C). set (s := shell_safety_out _ _ _) in *.
  assert (top_height p <= - s).
  { apply top_le, (all_six (λ x, x <= - s)). pose proof (Rle_abs (vz p)). pose proof (Rle_abs (- vz p)) as H'. rewrite Rabs_Ropp in H'. split; [|lra].
    intros pl Hi. specialize (B _ Hi). lra. }
  destruct (proj1 (all_six (λ x, x <= top_height p) p) (proj1 (top_spec p))) as (K & H1 & H2).
  destruct C as [C|(pl & Hi & C)]; [|specialize (K _ Hi); lra].
  assert (Rabs (vz p) - dz <= top_height p); [|lra]. assert (Rabs (vz p) <= top_height p + dz); [|lra]. apply Rabs_le. lra.
Qed.
Lemma shell_out_le pls p d : 0 <= inf → shell_to_out inf pls p d <= inf.
Proof using.
  intros H. unfold shell_to_out. assert (G : ∀ out, out <= inf → foldl (λ out pl,
    let out := if rgtb (pl_dist pl p) kHalfTolerance then -1 else out in
    let v := shell_vdist pl p d in
    if rgtb (pl_proj pl d) 0 && rltb v out then v else out) out pls <= inf); [|apply G; lra].
  induction pls as [|pl l IH]; intros out Ho; [done|]. cbn [foldl]. apply IH. cbv zeta.
  assert ((if rgtb (pl_dist pl p) kHalfTolerance then -1 else out) <= inf) by (destruct (rgtb _ _); lra).
  destruct (_ && _) eqn:E; [|done]. apply andb_true_iff in E as [_ E]. apply rltb_true in E. lra.
Qed.
Lemma to_out_six p d : 0 <= inf → Rabs (vz p) <= dz + kHalfTolerance → trap_to_out inf t p d = shell_to_out inf six_of p d.
Proof using.
  intros H0 H. pose proof (shell_out_le (tz_planes t) p d H0) as Hinf. unfold trap_to_out. fold dz. destruct (rgtb_spec (Rabs (vz p)) (dz + kHalfTolerance)); [lra|].
  unfold shell_to_out, six_of. rewrite foldl_app. unfold shell_to_out in Hinf. set (out := foldl _ inf (tz_planes t)) in *. clearbody out.
  unfold z_planes. cbn [foldl]. unfold shell_vdist. destruct (z_dist p) as [Z1 Z2]. rewrite Z1, Z2.
  assert (P1 : pl_proj (Plane (V3 0 0 1) (- dz)) d = vz d) by (unfold pl_proj, vdot; cbn; lra).
  assert (P2 : pl_proj (Plane (V3 0 0 (-1)) (- dz)) d = - vz d) by (unfold pl_proj, vdot; cbn; lra). rewrite P1, P2.
  apply abs_le_inv in H. destruct (rgtb_spec (vz p - dz) kHalfTolerance); [lra|]. destruct (rgtb_spec (- vz p - dz) kHalfTolerance); [lra|].
  destruct (rsign_cases (vz d)) as [[Hd ->]|[Hd ->]].
  - destruct (reqb_spec (vz d) 0); [lra|]. cbn [negb]. destruct (rgtb_spec (vz d) 0); [lra|]. destruct (rgtb_spec (- vz d) 0); [|lra]. cbn [andb].
    rewrite (nz_neg_eq _ Hd). replace (- (- vz p - dz) / - nz (vz d)) with ((-1 * dz - vz p) / nz (vz d)) by (pose proof (nz_neg _ Hd); field; lra).
    set (v := (-1 * dz - vz p) / nz (vz d)). destruct (rltb_spec out v); destruct (rltb_spec v out); lra.
  - destruct (rgtb_spec (- vz d) 0); [lra|]. cbn [andb]. destruct (reqb_spec (vz d) 0) as [E|E]; cbn [negb].
    + destruct (rgtb_spec (vz d) 0); [lra|]. cbn [andb]. destruct (rltb_spec out inf); lra.
    + destruct (rgtb_spec (vz d) 0); [|lra]. cbn [andb]. replace (- (vz p - dz) / nz (vz d)) with ((1 * dz - vz p) / nz (vz d)) by (f_equal; ring).
      set (v := (1 * dz - vz p) / nz (vz d)). destruct (rltb_spec out v); destruct (rltb_spec v out); lra.
Qed.
Lemma cut_six q : cut (halves six_of) q ↔ cut (halves (tz_planes t)) q ∧ Rabs (vz q) <= dz.
Proof using. unfold six_of. rewrite cut_app, cut_z. done. Qed.
Lemma to_in_six p d : (∀ pl, In pl six_of → settled p pl) → steady kAbsorb (halves six_of) d → vz d ≠ 0 → dz + Rabs (vz p) < inf * Rabs (vz d) →
  enters inf (cut (halves six_of)) p d (trap_to_in inf t p d) ∨ (trap_to_in inf t p d < 0 ∧ cut (halves six_of) p).
Proof using.
  intros Hs Hst Hd Hb. pose proof kHalfTolerance_pos as Hh. rewrite steady_iff in Hst.
  assert (Sz : (kHalfTolerance < vz p - dz ∨ vz p - dz <= - kHalfTolerance) ∧ (kHalfTolerance < - vz p - dz ∨ - vz p - dz <= - kHalfTolerance)).
  { destruct (z_dist p) as [Z1 Z2]. rewrite <- Z1, <- Z2. split; apply Hs, in_or_app; right; cbn; auto. }
  assert (Hz : nz (vz d) = vz d).
  { apply nz_large. destruct (Hst (Plane (V3 0 0 1) (- dz))) as [E|E]; [apply in_or_app; right; cbn; auto|..];
    (replace (pl_proj (Plane (V3 0 0 1) (- dz)) d) with (vz d) in E by (unfold pl_proj, vdot; cbn; lra)); [done|lra]. }
  unfold trap_to_in. fold dz. rewrite Hz.
  assert (Hsides : ∀ pl, In pl (tz_planes t) → settled p pl) by (intros; apply Hs, in_or_app; auto).
  assert (Hst' : steady kAbsorb (halves (tz_planes t)) d) by (apply steady_iff; intros; apply Hst, in_or_app; auto).
  assert (Hsm : ∃ smin smax, smin = - (rsign (vz d) * dz + vz p) * (1 / vz d) ∧ smax = (rsign (vz d) * dz - vz p) * (1 / vz d) ∧ smax < inf ∧
    (∀ u, smin <= u <= smax ↔ Rabs (vz p + u * vz d) <= dz) ∧ (smin < 0 ↔ - dz < rsign (vz d) * vz p)).
  { eexists _, _. split; [done|]. split; [done|]. pose proof (Rle_abs (vz p)) as Ha. pose proof (Rle_abs (- vz p)) as Ha'. rewrite Rabs_Ropp in Ha'.
    destruct (rsign_cases (vz d)) as [[Hn ->]|[Hn ->]].
    - rewrite (Rabs_left (vz d)) in Hb by done. set (i := 1 / vz d). assert (Ei : i * vz d = 1) by (unfold i; field; lra). assert (i < 0) by nra. split; [|split].
      + assert (inf * (- vz d) * i = - inf) by (rewrite <- (Rmult_1_r inf) at 2; rewrite <- Ei; ring). nra.
      + intros u. split.
        * intros [H1 H2]. apply Rabs_le. assert (vz p + u * vz d <= vz p + (- (-1 * dz + vz p) * i) * vz d) by nra. 
          assert (vz p + ((-1 * dz - vz p) * i) * vz d <= vz p + u * vz d) by nra. rewrite Rmult_assoc, Ei in *. lra.
        * intros H1. apply abs_le_inv in H1. assert (u = (u * vz d) * i) as -> by (rewrite Rmult_assoc, (Rmult_comm (vz d)), Ei; ring). split; nra.
      + split; nra.
    - assert (Hp : 0 < vz d) by lra. rewrite (Rabs_pos_eq (vz d)) in Hb by lra. set (i := 1 / vz d). assert (Ei : i * vz d = 1) by (unfold i; field; lra). assert (0 < i) by nra. split; [|split].
      + assert (inf * vz d * i = inf) by (rewrite <- (Rmult_1_r inf) at 2; rewrite <- Ei; ring). nra.
      + intros u. split.
        * intros [H1 H2]. apply Rabs_le. assert (vz p + (- (1 * dz + vz p) * i) * vz d <= vz p + u * vz d) by nra.
          assert (vz p + u * vz d <= vz p + ((1 * dz - vz p) * i) * vz d) by nra. rewrite Rmult_assoc, Ei in *. lra.
        * intros H1. apply abs_le_inv in H1. assert (u = (u * vz d) * i) as -> by (rewrite Rmult_assoc, (Rmult_comm (vz d)), Ei; ring). split; nra.
      + split; nra. }
  destruct Hsm as (smin & smax & E1 & E2 & Hsi & HW & Hneg). rewrite <- E1, <- E2.
  assert (HW' : ∀ u, smin <= u <= smax ∧ cut (halves (tz_planes t)) (along p d u) ↔ cut (halves six_of) (along p d u)).
  { intros u. rewrite cut_six, HW. change (vz (along p d u)) with (vz p + u * vz d). tauto. }
  replace (rsign (vz d) * (rsign (vz d) * dz - vz p)) with (dz - rsign (vz d) * vz p) by (destruct (rsign_cases (vz d)) as [[_ ->]|[_ ->]]; ring).
  destruct (rltb_spec (dz - rsign (vz d) * vz p) (0 + kHalfTolerance)) as [Hm|Hm].
  - left. left. split; [done|]. intros u Hu K. apply cut_six in K as [_ K]. change (vz (along p d u)) with (vz p + u * vz d) in K. fold dz in K. apply abs_le_inv in K.
    destruct (rsign_cases (vz d)) as [[Hn Es]|[Hn Es]]; rewrite Es in Hm.
    + assert (0 <= u * (- vz d)) by (apply Rmult_le_pos; lra). destruct Sz as [[?|?] [?|?]]; lra.
    + assert (0 <= u * vz d) by (apply Rmult_le_pos; lra). destruct Sz as [[?|?] [?|?]]; lra.
  - pose proof (shell_to_in_spec inf (tz_planes t) p d smin smax Hsides Hst' Hsi) as G. cbv zeta in G. set (D := shell_to_in _ _ _ _ _ _) in *.
    destruct G as [[G1 G2]|[(G1 & G2 & G3 & G4)|(G1 & G2 & G3)]].
    + left. left. split; [done|]. intros u Hu K. apply (G2 u Hu), HW', K.
    + left. right. split; [done|]. split; [done|]. split; [apply HW', G3|]. intros u Hu K. apply (G4 u Hu), HW', K.
    + right. split; [done|]. apply cut_six. split; [done|]. rewrite G2 in G1. apply Hneg in G1. apply Rabs_le.
      destruct (rsign_cases (vz d)) as [[Hn Es]|[Hn Es]]; rewrite Es in Hm, G1; lra.
Qed.
(** Level rays: kTiny divides. *)
Lemma to_in_level p d : (∀ pl, In pl six_of → settled p pl) → steady kAbsorb (halves (tz_planes t)) d → vz d = 0 → 0 < dz →
  (dz + Rabs (vz p)) / kTiny < inf → (∀ u, cut (halves (tz_planes t)) (along p d u) → u < kHalfTolerance / kTiny) →
  enters inf (cut (halves six_of)) p d (trap_to_in inf t p d) ∨ (trap_to_in inf t p d < 0 ∧ cut (halves six_of) p).
Proof using.
  intros Hs Hst' Hd Hdz Hb Hfar. pose proof kHalfTolerance_pos as Hh. pose proof kTiny_pos as Ht.
  assert (Sz : (kHalfTolerance < vz p - dz ∨ vz p - dz <= - kHalfTolerance) ∧ (kHalfTolerance < - vz p - dz ∨ - vz p - dz <= - kHalfTolerance)).
  { destruct (z_dist p) as [Z1 Z2]. rewrite <- Z1, <- Z2. split; apply Hs, in_or_app; right; cbn; auto. }
  assert (Hsides : ∀ pl, In pl (tz_planes t) → settled p pl) by (intros; apply Hs, in_or_app; auto).
  unfold trap_to_in. fold dz. rewrite Hd, nz_zero. assert (rsign 0 = 1) as -> by (unfold rsign; destruct (rltb_spec 0 0); lra).
  assert (HC : ∀ u, cut (halves six_of) (along p d u) ↔ cut (halves (tz_planes t)) (along p d u) ∧ Rabs (vz p) <= dz).
  { intros u. rewrite cut_six. change (vz (along p d u)) with (vz p + u * vz d). rewrite Hd, Rmult_0_r, Rplus_0_r. done. }
  assert (Hi : 0 < 1 / kTiny) by (apply Rdiv_lt_0_compat; lra). unfold Rdiv in Hb, Hfar. replace (/ kTiny) with (1 / kTiny) in Hb, Hfar by (unfold Rdiv; ring).
  set (i := 1 / kTiny) in *. pose proof (Rle_abs (vz p)) as Ha. pose proof (Rle_abs (- vz p)) as Ha'. rewrite Rabs_Ropp in Ha'.
  destruct (rltb_spec (1 * (1 * dz - vz p)) (0 + kHalfTolerance)) as [Hm|Hm].
  { left. left. split; [done|]. intros u _ K. apply HC in K as [_ K]. lra. }
  assert (Hsi : (1 * dz - vz p) * i < inf) by nra.
  pose proof (shell_to_in_spec inf (tz_planes t) p d (- (1 * dz + vz p) * i) ((1 * dz - vz p) * i) Hsides Hst' Hsi) as G. cbv zeta in G. set (D := shell_to_in _ _ _ _ _ _) in *.
  assert (HW : ∀ u, 0 <= u → cut (halves six_of) (along p d u) → (- (1 * dz + vz p) * i <= u <= (1 * dz - vz p) * i) ∧ cut (halves (tz_planes t)) (along p d u)).
  { intros u Hu K. apply HC in K as [K1 K2]. split; [|done]. specialize (Hfar _ K1). split; nra. }
  destruct G as [[G1 G2]|[(G1 & G2 & G3 & G4)|(G1 & G2 & G3)]].
  - left. left. split; [done|]. intros u Hu K. apply (G2 u Hu), HW; done.
  - left. right. split; [done|]. split; [done|]. split.
    + apply HC. split; [apply G3|]. destruct G3 as [[G3 _] G5]. specialize (Hfar _ G5).
      assert (- (1 * dz + vz p) < kHalfTolerance) by (apply (Rmult_lt_reg_r i); [done|lra]). apply Rabs_le. lra.
    + intros u Hu K. apply (G4 u Hu), HW; [lra|done].
  - right. split; [done|]. apply cut_six. split; [done|]. assert (0 < (1 * dz + vz p) * i) by lra.
    assert (0 < 1 * dz + vz p) by (apply (Rmult_lt_reg_r i); [done|lra]). apply Rabs_le. lra.
Qed.
End Six.
