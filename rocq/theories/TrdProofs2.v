(** Rays and frustums. *)
From Coq Require Import Reals Lra Lia Bool ZArith Psatz.
From stdpp Require Import base list option numbers tactics.
From Verif Require Import Real3 AABBModel BoxModel BoxProofs PlanesModel PlanesSpec PlanesProofs TrapSpec TrdModel TrdSpec TrdProofs.
Import stdpp.list.
Local Open Scope R_scope.

Lemma height_along n c p d u : height n c (along p d u) = height n c p + u * vdot n d.
Proof. unfold height, along, vdot. cbn. ring. Qed.
Lemma snap_snap r : snap (snap r) = snap r.
Proof.
  pose proof kHalfTolerance_pos. unfold snap. destruct (rltb_spec (Rabs r) kHalfTolerance) as [L|L]; [rewrite Rabs_R0; destruct (rltb_spec 0 kHalfTolerance); done|].
  destruct (rltb_spec (Rabs r) kHalfTolerance); done.
Qed.
Lemma plus_tiny_steady b : kAbsorb <= Rabs b → plus_tiny b = b.
Proof. intros H. unfold plus_tiny. destruct (rgeb_spec (Rabs b) kAbsorb); [done|lra]. Qed.

Section Rays.
Variables (x1 x2 y1 y2 dz : R).
Hypothesis Hz : 0 < dz.
Hypotheses (Hx1 : 0 <= x1) (Hx2 : 0 <= x2) (Hy1 : 0 <= y1) (Hy2 : 0 <= y2).
Let t := trd_struct x1 x2 y1 y2 dz.
Let S := frustum x1 x2 y1 y2 dz.
Let Q := rough x1 x2 y1 y2 dz.
(** Normal and offset of a side: the faces at +x, -x, +y, -y. *)
Definition side (forY mirrored : bool) : v3 * R :=
  let s := if mirrored then - (2 * dz) else 2 * dz in
  if forY then (V3 0 s (- (y2 - y1)), - (dz * (y1 + y2))) else (V3 s 0 (- (x2 - x1)), - (dz * (x1 + x2))).
Lemma side_in f m : In (side f m) Q.
Proof using. destruct f, m; cbn; auto 10. Qed.
Definition sgn (m : bool) (x : R) : R := if m then - x else x.
Lemma side_height f m p : height (fst (side f m)) (snd (side f m)) p = 2 * dz * (sgn m (if f then vy p else vx p) - if f then width dz y1 y2 (vz p) else width dz x1 x2 (vz p)).
Proof using Hz. destruct f, m; unfold side, height, sgn, width; cbn; field; lra. Qed.
Lemma S_rough p : S p ↔ cut Q p.
Proof using Hz.
  assert (E : cut Q p ↔ (∀ f m, height (fst (side f m)) (snd (side f m)) p <= 0) ∧ vz p - dz <= 0 ∧ - vz p - dz <= 0).
  { unfold cut, under. split.
    - intros H. split; [intros f m; apply H; rewrite <- surjective_pairing; apply side_in|]. pose proof (H (V3 0 0 1) (- dz)) as A. pose proof (H (V3 0 0 (-1)) (- dz)) as B. unfold height in A, B. cbn in A, B.
      split; [assert (0 * vx p + 0 * vy p + 1 * vz p + - dz <= 0) by (apply A; auto 10); lra|assert (0 * vx p + 0 * vy p + -1 * vz p + - dz <= 0) by (apply B; auto 10); lra].
    - intros (A & B & C) n k Hi. cbn in Hi. destruct Hi as [E|[E|[E|[E|[E|[E|[]]]]]]]; injection E as <- <-; [apply (A false false)|apply (A false true)|apply (A true false)|apply (A true true)| |]; unfold height; cbn; lra. }
  rewrite E. unfold S, frustum. rewrite !abs_two. assert (K : ∀ a, 2 * dz * a <= 0 ↔ a <= 0) by (intros a; split; intros; nra). split.
  - intros (A & B & C). split; [|lra]. intros f m. rewrite side_height, K. destruct f, m; unfold sgn; lra.
  - intros (A & C). pose proof (A false false) as H1. pose proof (A false true) as H2. pose proof (A true false) as H3. pose proof (A true true) as H4. rewrite side_height, K in H1, H2, H3, H4. unfold sgn in *. lra.
Qed.
Lemma S_convex p d u v w : S (along p d u) → S (along p d w) → u <= v <= w → S (along p d v).
Proof using Hz.
  rewrite !S_rough. intros A B H n c Hi. specialize (A n c Hi). specialize (B n c Hi). unfold under in *. rewrite height_along in *. destruct (Rle_dec (vdot n d) 0); nra.
Qed.
(** One side against a ray. *)
Lemma face_hit_eq f m ti p d : let n := fst (side f m) in let b := vdot n d in let D := - height n (snd (side f m)) p / b in let h := along p d D in
  b = 0 ∨ kAbsorb <= Rabs b →
  face_hit t f m ti p d = if (if ti then rltb b 0 else rgtb b 0) && rgtb D (- kHalfTolerance) && (rleb (Rabs (vz h)) dz && rleb (Rabs (if f then vx h else vy h)) (if f then width dz x1 x2 (vz h) else width dz y1 y2 (vz h)))
    then Some (snap D) else None.
Proof using Hz.
  cbv zeta. intros Hs. set (b := vdot (fst (side f m)) d) in *. set (q := height (fst (side f m)) (snd (side f m)) p).
  unfold face_hit. cbv zeta. pose proof (wx_eq x1 x2 y1 y2 dz Hz) as WX. pose proof (wy_eq x1 x2 y1 y2 dz Hz) as WY. fold t in WX, WY.
  set (nv := _ + _ * vz d). assert (Enu : ∃ c, 0 < c ∧ nv = c * b).
  { exists (1 / (2 * dz)). split; [apply Rdiv_lt_0_compat; lra|]. unfold nv, b, side, vdot. destruct f, m; cbn [fst snd vx vy vz t trd_struct calculate_cached td_fx td_fy]; field; lra. }
  destruct Enu as (c & Hc & Enu).
  assert (E1 : (if ti then rltb nv 0 else rgtb nv 0) = (if ti then rltb b 0 else rgtb b 0)).
  { rewrite Enu. destruct ti; [destruct (rltb_spec (c * b) 0), (rltb_spec b 0)|destruct (rgtb_spec (c * b) 0), (rgtb_spec b 0)]; try done; exfalso; nra. }
  rewrite E1. clearbody nv. destruct (if ti then rltb b 0 else rgtb b 0) eqn:Eb; cbn [negb andb]; [|done].
  assert (Hb : b ≠ 0) by (destruct ti; [destruct (rltb_spec b 0)|destruct (rgtb_spec b 0)]; [lra|done|lra|done]).
  assert (Ha : kAbsorb <= Rabs b) by (destruct Hs; done).
  set (num := 2 * td_z t * _ - _). assert (En : num = q) by (unfold num, q, side, height; destruct f, m; cbn; ring).
  set (den := vz d * _ - _). assert (Ed : den = - b) by (unfold den, b, side, vdot; destruct f, m; cbn; ring). rewrite En, Ed. clear En Ed. clearbody num den.
  rewrite plus_tiny_steady by (rewrite Rabs_Ropp; done). replace (q / - b) with (- q / b) by (field; lra). set (D := - q / b). unfold minus_tolerant. replace (0 - kHalfTolerance) with (- kHalfTolerance) by lra.
  destruct (rgtb D (- kHalfTolerance)); cbn [negb andb]; [|done]. change (td_z t) with dz.
  assert (Ez : vz p + D * vz d = vz (along p d D)) by done.
  assert (Ek : (if f then vx p else vy p) + D * (if f then vx d else vy d) = if f then vx (along p d D) else vy (along p d D)) by (destruct f; done).
  rewrite Ez, Ek. assert (Ew : (if f then td_hx t else td_hy t) - (if f then td_fx t else td_fy t) * vz (along p d D) = (if f then width dz x1 x2 (vz (along p d D)) else width dz y1 y2 (vz (along p d D)))) by (destruct f; [apply WX|apply WY]).
  rewrite Ew. done.
Qed.
(** Hits are on the surface; the solid is on one side of the hit face. *)
Lemma face_hit_sound (f m ti : bool) p d r : let b := vdot (fst (side f m)) d in b = 0 ∨ kAbsorb <= Rabs b → face_hit t f m ti p d = Some r →
  ∃ D, r = snap D ∧ - kHalfTolerance < D ∧ S (along p d D) ∧ (if ti then ∀ u, u < D → ¬ S (along p d u) else ∀ u, D < u → ¬ S (along p d u)).
Proof using Hz Hx1 Hx2 Hy1 Hy2.
  cbv zeta. intros Hs. rewrite (face_hit_eq f m ti p d Hs). cbv zeta. set (n := fst (side f m)) in *. set (c := snd (side f m)). set (b := vdot n d) in *. set (D := - height n c p / b).
  destruct (if ti then rltb b 0 else rgtb b 0) eqn:Eb; cbn [andb]; [|done]. destruct (rgtb_spec D (- kHalfTolerance)) as [G|G]; cbn [andb]; [|done].
  destruct (rleb_spec (Rabs (vz (along p d D))) dz) as [Lz|Lz]; cbn [andb]; [|done]. destruct (rleb_spec (Rabs (if f then vx (along p d D) else vy (along p d D))) (if f then width dz x1 x2 (vz (along p d D)) else width dz y1 y2 (vz (along p d D)))) as [Lk|Lk]; [|done].
  intros [= <-]. assert (Hb : b ≠ 0) by (destruct ti; [destruct (rltb_spec b 0)|destruct (rgtb_spec b 0)]; [lra|done|lra|done]).
  assert (H0 : height n c (along p d D) = 0) by (rewrite height_along; fold b; unfold D; field; done).
  exists D. split; [done|]. split; [lra|]. split.
  - pose proof (width_nonneg dz Hz x1 x2 _ Hx1 Hx2 Lz) as W1. pose proof (width_nonneg dz Hz y1 y2 _ Hy1 Hy2 Lz) as W2. unfold n, c in H0. rewrite side_height in H0. unfold S, frustum.
    apply Rmult_integral in H0 as [H0|H0]; [lra|]. destruct f; (split; [|split]); try done; apply abs_two; destruct m; unfold sgn in H0; lra.
  - assert (Out : ∀ u, 0 < (u - D) * b → ¬ S (along p d u)).
    { intros u Hu Hn. apply S_rough in Hn. specialize (Hn n c). unfold under in Hn. rewrite height_along in Hn, H0. fold b in Hn, H0. assert (height n c p + u * b <= 0) by (apply Hn; unfold n, c; rewrite <- surjective_pairing; apply side_in). lra. }
    destruct ti; intros u Hu; apply Out; [destruct (rltb_spec b 0); [|done]|destruct (rgtb_spec b 0); [|done]]; nra.
Qed.
Lemma face_hit_complete (f m ti : bool) p d D : let n := fst (side f m) in let b := vdot n d in kAbsorb <= Rabs b → (if ti then b < 0 else 0 < b) →
  height n (snd (side f m)) (along p d D) = 0 → S (along p d D) → - kHalfTolerance < D → face_hit t f m ti p d = Some (snap D).
Proof using Hz.
  cbv zeta. intros Ha Hb H0 HS HD. rewrite (face_hit_eq f m ti p d (or_intror Ha)). cbv zeta. set (n := fst (side f m)) in *. set (c := snd (side f m)) in *. set (b := vdot n d) in *.
  assert (Hn : b ≠ 0) by (destruct ti; lra). assert (ED : - height n c p / b = D) by (rewrite height_along in H0; fold b in H0; replace (height n c p) with (- (D * b)) by lra; field; done). rewrite ED.
  destruct HS as (A & B & E). destruct ti; [destruct (rltb_spec b 0); [|lra]|destruct (rgtb_spec b 0); [|lra]]; cbn [andb]; (destruct (rgtb_spec D (- kHalfTolerance)); [|lra]); cbn [andb];
  (destruct (rleb_spec (Rabs (vz (along p d D))) dz); [|done]); cbn [andb]; destruct f; match goal with |- context [rleb ?a ?b] => destruct (rleb_spec a b) end; done.
Qed.
(** The lids. *)
Lemma lid_hit s p d D : (s = 1 ∨ s = -1) → vz (along p d D) = s * dz → Rabs (vx (along p d D)) <= (if rltb s 0 then x1 else x2) → Rabs (vy (along p d D)) <= (if rltb s 0 then y1 else y2) → S (along p d D).
Proof using Hz.
  intros Hs E A B. unfold S, frustum. rewrite E. destruct Hs as [-> | ->].
  - destruct (rltb_spec 1 0); [lra|]. rewrite Rmult_1_l, !width_top by done. rewrite (Rabs_pos_eq dz) by lra. lra.
  - destruct (rltb_spec (-1) 0); [|lra]. replace (-1 * dz) with (- dz) by lra. rewrite !width_low by done. rewrite (Rabs_left (- dz)) by lra. lra.
Qed.
End Rays.
