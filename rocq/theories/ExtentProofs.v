(** Lemmas about bounding boxes of placed volumes. *)
From Coq Require Import Reals Lra Psatz Lia.
From stdpp Require Import list option.
From Verif Require Import Real3 AABBModel AABBSpec TransModel TransSpec TransProofs ExtentModel ExtentSpec.
Import stdpp.list.
Local Open Scope R_scope.

Lemma fold_mono l : ∀ b, let r := foldl extend_box b l in
  (vx (bmin r) <= vx (bmin b) ∧ vy (bmin r) <= vy (bmin b) ∧ vz (bmin r) <= vz (bmin b)) ∧ (vx (bmax b) <= vx (bmax r) ∧ vy (bmax b) <= vy (bmax r) ∧ vz (bmax b) <= vz (bmax r)).
Proof.
  induction l as [|c l IH]; intros b; cbn [foldl]; [cbn; lra|]. cbv zeta in *. specialize (IH (extend_box b c)). set (r := foldl extend_box (extend_box b c) l) in *. unfold extend_box in IH. cbn [bmin bmax vx vy vz] in IH.
  pose proof (Rmin_l (vx (bmin b)) (vx c)). pose proof (Rmin_l (vy (bmin b)) (vy c)). pose proof (Rmin_l (vz (bmin b)) (vz c)).
  pose proof (Rmax_l (vx (bmax b)) (vx c)). pose proof (Rmax_l (vy (bmax b)) (vy c)). pose proof (Rmax_l (vz (bmax b)) (vz c)). lra.
Qed.
Lemma fold_in l : ∀ b c, c ∈ l → in_box (foldl extend_box b l) c.
Proof.
  induction l as [|d l IH]; intros b c H; [by apply elem_of_nil in H|]. cbn [foldl]. apply elem_of_cons in H as [-> | H]; [|by apply IH].
  pose proof (fold_mono l (extend_box b d)) as K. cbv zeta in K. set (r := foldl extend_box (extend_box b d) l) in *. unfold extend_box in K. cbn [bmin bmax vx vy vz] in K.
  pose proof (Rmin_r (vx (bmin b)) (vx d)). pose proof (Rmin_r (vy (bmin b)) (vy d)). pose proof (Rmin_r (vz (bmin b)) (vz d)).
  pose proof (Rmax_r (vx (bmax b)) (vx d)). pose proof (Rmax_r (vy (bmax b)) (vy d)). pose proof (Rmax_r (vz (bmax b)) (vz d)). unfold in_box. lra.
Qed.
(** Each face comes from the start or from a point. *)
Lemma fold_attained (f : aabb → R) (g : v3 → R) : (∀ b c, f (extend_box b c) = f b ∨ f (extend_box b c) = g c) → ∀ l b, f (foldl extend_box b l) = f b ∨ ∃ c, c ∈ l ∧ g c = f (foldl extend_box b l).
Proof.
  intros H. induction l as [|c l IH]; intros b; cbn [foldl]; [by left|]. destruct (IH (extend_box b c)) as [E|(d & Hd & E)].
  - rewrite E. destruct (H b c) as [-> | E']; [by left|right]. exists c. split; [left|congruence].
  - right. exists d. split; [by right|done].
Qed.
Lemma min_cases a b : Rmin a b = a ∨ Rmin a b = b. Proof. unfold Rmin. destruct (Rle_dec a b); auto. Qed.
Lemma max_cases a b : Rmax a b = a ∨ Rmax a b = b. Proof. unfold Rmax. destruct (Rle_dec a b); auto. Qed.
Lemma corners_elem lower upper c : c ∈ abbox_corners lower upper ↔ is_corner (Box lower upper) c.
Proof.
  unfold abbox_corners, is_corner. cbn. rewrite !elem_of_cons, elem_of_nil. destruct c as [x y z]. cbn. split.
  - intros K. repeat (destruct K as [K|K]; [injection K as -> -> ->; repeat split; lra|]). done.
  - intros ([-> | ->] & [-> | ->] & [-> | ->]);
    [do 0 right|do 1 right|do 2 right|do 3 right|do 4 right|do 5 right|do 6 right|do 7 right]; left; f_equal; lra.
Qed.
(** A linear form on a box lies between its values at corners. *)
Lemma linear_corner a b c lower upper p : in_box (Box lower upper) p → ∃ q, is_corner (Box lower upper) q ∧ a * vx q + b * vy q + c * vz q <= a * vx p + b * vy p + c * vz p.
Proof.
  intros (Hx & Hy & Hz). cbn in *. assert (∀ k l u x, l <= x <= u → ∃ y, (y = l ∨ y = u) ∧ k * y <= k * x) as K.
  { intros k l u x H. destruct (Rle_lt_dec 0 k); [exists l|exists u]; (split; [auto|nra]). }
  destruct (K a _ _ _ Hx) as (x & Ex & Lx). destruct (K b _ _ _ Hy) as (y & Ey & Ly). destruct (K c _ _ _ Hz) as (z & Ez & Lz).
  exists (V3 x y z). split; [done|]. cbn. lra.
Qed.
Lemma image_in_box t lower upper b p : (∀ q, is_corner (Box lower upper) q → in_box b (inverse_transform t q)) → in_box (Box lower upper) p → in_box b (inverse_transform t p).
Proof.
  intros H Hp. unfold in_box, inverse_transform in *; cbn [vx vy vz] in *.
  destruct (linear_corner (r0 t) (r1 t) (r2 t) _ _ _ Hp) as (q1 & C1 & L1). destruct (linear_corner (- r0 t) (- r1 t) (- r2 t) _ _ _ Hp) as (q2 & C2 & L2).
  destruct (linear_corner (r3 t) (r4 t) (r5 t) _ _ _ Hp) as (q3 & C3 & L3). destruct (linear_corner (- r3 t) (- r4 t) (- r5 t) _ _ _ Hp) as (q4 & C4 & L4).
  destruct (linear_corner (r6 t) (r7 t) (r8 t) _ _ _ Hp) as (q5 & C5 & L5). destruct (linear_corner (- r6 t) (- r7 t) (- r8 t) _ _ _ Hp) as (q6 & C6 & L6).
  pose proof (H _ C1) as (? & _ & _). pose proof (H _ C2) as (? & _ & _). pose proof (H _ C3) as (_ & ? & _). pose proof (H _ C4) as (_ & ? & _). pose proof (H _ C5) as (_ & _ & ?). pose proof (H _ C6) as (_ & _ & ?). lra.
Qed.
Lemma abbox_in inf lower upper t p : in_box (Box lower upper) p → in_box (shrunk (1 / 1000) (compute_abbox inf lower upper t)) (inverse_transform t p).
Proof.
  apply image_in_box. intros q Hq. unfold compute_abbox, shrunk. cbn [bmin bmax].
  pose proof (fold_in (inverse_transform t <$> abbox_corners lower upper) (Box (V3 inf inf inf) (V3 (- inf) (- inf) (- inf))) (inverse_transform t q)) as K.
  set (b := foldl _ _ _) in *. destruct K as (Kx & Ky & Kz); [apply elem_of_list_fmap; exists q; split; [done|by apply corners_elem]|]. clearbody b. unfold in_box, inverse_transform in *; cbn [bmin bmax vadd vsub vx vy vz] in *. lra.
Qed.
Lemma interior_shrunk e b p : 0 < e → in_box (shrunk e b) p → in_interior b p.
Proof. unfold in_box, in_interior, shrunk; cbn. lra. Qed.
Lemma moved_inverse t v q : inverse_transform (moved t (inverse_transform t v)) q = inverse_transform t (vadd v q).
Proof. apply v3_eq; cbn; ring. Qed.
(** Intervals of a regular splitting cover. *)
Lemma split_cover n : ∀ lo w x, 0 <= w → lo <= x <= lo + INR (S n) * w → ∃ i, (i <= n)%nat ∧ lo + INR i * w <= x <= lo + INR i * w + w.
Proof.
  induction n as [|n IH]; intros lo w x Hw Hx; [exists 0%nat; cbn in *; split; [lia|lra]|].
  destruct (Rle_dec x (lo + w)) as [L|L]; [exists 0%nat; cbn; split; [lia|lra]|]. rewrite S_INR in Hx. destruct (IH (lo + w) w x Hw) as (i & Hi & K); [rewrite S_INR in *; lra|].
  exists (S i). rewrite S_INR. split; [lia|lra].
Qed.
Lemma slices_lookup inf t dim split half n : ∀ val i, (i < n)%nat → slices inf t dim split half val n !! i = Some (compute_abbox inf (vneg half) half (moved t (inverse_transform t (on_axis dim (val + INR i * split) vzero)))).
Proof.
  induction n as [|n IH]; intros val i Hi; [lia|]. cbn [slices]. destruct i as [|i]; cbn [lookup list_lookup].
  - cbn. by rewrite Rmult_0_l, Rplus_0_r.
  - rewrite IH by lia. rewrite S_INR. do 4 f_equal. f_equal. lra.
Qed.

(** ** Assemblies *)
Lemma join_mono l : ∀ b, let r := foldl join_box b l in
  (vx (bmin r) <= vx (bmin b) ∧ vy (bmin r) <= vy (bmin b) ∧ vz (bmin r) <= vz (bmin b)) ∧ (vx (bmax b) <= vx (bmax r) ∧ vy (bmax b) <= vy (bmax r) ∧ vz (bmax b) <= vz (bmax r)).
Proof.
  induction l as [|c l IH]; intros b; cbn [foldl]; [cbn; lra|]. cbv zeta in *. specialize (IH (join_box b c)). set (r := foldl join_box (join_box b c) l) in *. unfold join_box in IH. cbn [bmin bmax vx vy vz] in IH.
  pose proof (Rmin_r (vx (bmin c)) (vx (bmin b))). pose proof (Rmin_r (vy (bmin c)) (vy (bmin b))). pose proof (Rmin_r (vz (bmin c)) (vz (bmin b))).
  pose proof (Rmax_r (vx (bmax c)) (vx (bmax b))). pose proof (Rmax_r (vy (bmax c)) (vy (bmax b))). pose proof (Rmax_r (vz (bmax c)) (vz (bmax b))). lra.
Qed.
Lemma join_interior l : ∀ b d p, d ∈ l → in_interior d p → in_interior (foldl join_box b l) p.
Proof.
  induction l as [|c l IH]; intros b d p H Hp; [by apply elem_of_nil in H|]. cbn [foldl]. apply elem_of_cons in H as [-> | H]; [|by eapply IH].
  pose proof (join_mono l (join_box b c)) as K. cbv zeta in K. set (r := foldl join_box (join_box b c) l) in *. unfold join_box in K. cbn [bmin bmax vx vy vz] in K.
  pose proof (Rmin_l (vx (bmin c)) (vx (bmin b))). pose proof (Rmin_l (vy (bmin c)) (vy (bmin b))). pose proof (Rmin_l (vz (bmin c)) (vz (bmin b))).
  pose proof (Rmax_l (vx (bmax c)) (vx (bmax b))). pose proof (Rmax_l (vy (bmax c)) (vy (bmax b))). pose proof (Rmax_l (vz (bmax c)) (vz (bmax b))). unfold in_interior in *. lra.
Qed.
Lemma interior_in_box b p : in_interior b p → in_box b p.
Proof. unfold in_box, in_interior. lra. Qed.
Lemma contains_interior b p : abbox_contains b p = true ↔ in_interior b p.
Proof. unfold abbox_contains, in_interior, rgtb. rewrite !andb_true_iff, !rltb_true. tauto. Qed.
Section Store.
Variables (inf : R) (shape : nat → v3 → bool).
Definition shapes_ok (s : list lvol) : Prop := ∀ k lo up p, s !! k = Some (Plain lo up) → shape k p = true → in_box (Box lo up) p.
Definition placements_ok (s : list lvol) : Prop := ∀ k daus c t j, s !! k = Some (Assembly daus c) → (t, j) ∈ daus → ortho t.
Lemma mapM_elem {A B} (f : A → option B) l bs x : mapM f l = Some bs → x ∈ l → ∃ y, f x = Some y ∧ y ∈ bs.
Proof.
  intros H Hx. apply mapM_Some in H. apply elem_of_list_lookup in Hx as [i Hi]. eapply Forall2_lookup_l in H as (y & Hy & E); [|exact Hi]. exists y. split; [done|]. by eapply elem_of_list_lookup_2.
Qed.
Lemma mapM_elem_r {A B} (f : A → option B) l bs y : mapM f l = Some bs → y ∈ bs → ∃ x, f x = Some y ∧ x ∈ l.
Proof.
  intros H Hy. apply mapM_Some in H. apply elem_of_list_lookup in Hy as [i Hi]. eapply Forall2_lookup_r in H as (x & Hx & E); [|exact Hi]. exists x. split; [done|]. by eapply elem_of_list_lookup_2.
Qed.
(** The extent contains the points of the volume; the one of an assembly in its interior. *)
Lemma extent_ok s : shapes_ok s → placements_ok s → ∀ k p, in_vol shape s k p → ∀ fuel b, extent inf fuel s k = Some b →
  in_box b p ∧ (∀ daus c, s !! k = Some (Assembly daus c) → in_interior b p).
Proof.
  intros Hs Ho k p H. induction H as [k lo up p E S|k daus c t j p E M H IH]; intros fuel b X; (destruct fuel as [|f]; [done|]; cbn [extent] in X; rewrite E in X; cbn [mbind option_bind] in X).
  - injection X as <-. split; [by eapply Hs|]. intros. congruence.
  - destruct (mapM _ daus) as [bs|] eqn:EM; [|done]. cbn in X. injection X as <-.
    destruct (mapM_elem _ _ _ (t, j) EM M) as (y & Ey & My). cbn in Ey. destruct (extent inf f s j) as [e|] eqn:Ee; [|done]. cbn in Ey. injection Ey as <-.
    destruct (IH f e Ee) as [IH' _]. assert (in_interior (compute_abbox inf (bmin e) (bmax e) t) p) as K.
    { apply (interior_shrunk (1 / 1000)); [lra|]. rewrite <- (inverse_of_transform t p) by (by eapply Ho). apply abbox_in. by destruct e. }
    pose proof (join_interior bs (Box (V3 inf inf inf) (V3 (- inf) (- inf) (- inf))) _ _ My K) as Q. split; [by apply interior_in_box|done].
Qed.
(** Points of a volume depend on what it contains only. *)
Lemma in_vol_local s s' k p : (∀ j, placed_in s j → s' !! j = s !! j) → s' !! k = s !! k → in_vol shape s' k p → in_vol shape s k p.
Proof.
  intros H E I. revert E. induction I as [k lo up p E' S|k daus c t j p E' M I IH]; intros E.
  - eapply In_plain; [by rewrite <- E|done].
  - rewrite E in E'. eapply In_assembly; [done|done|]. apply IH. apply H. by exists k, daus, c, t.
Qed.
Definition good (s : list lvol) : Prop :=
  placements_ok s ∧ ∀ k daus c p, s !! k = Some (Assembly daus c) → in_vol shape s k p → in_interior c p.
Lemma place_good fuel s k t j s' : shapes_ok s → good s → ortho t → ¬ placed_in s k → k ≠ j → place_daughter inf fuel s k t j = Some s' →
  good s' ∧ shapes_ok s' ∧ (∀ i lo up, s' !! i = Some (Plain lo up) ↔ s !! i = Some (Plain lo up)).
Proof.
  intros Hs [Ho Hc] Ht Hp Hkj E. unfold place_daughter in E. destruct (s !! k) as [[lo up|daus c]|] eqn:Ek; cbn in E; [injection E as <-; done| |done].
  set (s1 := <[k:=Assembly (daus ++ [(t, j)]) c]> s) in *. destruct (extent inf fuel s1 k) as [b|] eqn:Eb; [|done]. cbn in E. injection E as <-.
  assert (k < length s)%nat as Hk by (by eapply lookup_lt_Some). assert (s1 !! k = Some (Assembly (daus ++ [(t, j)]) c)) as E1 by (by apply list_lookup_insert).
  set (s2 := <[k:=_]> s1). assert (s2 !! k = Some (Assembly (daus ++ [(t, j)]) b)) as E2 by (apply list_lookup_insert; unfold s1; by rewrite insert_length).
  assert (∀ i, i ≠ k → s1 !! i = s !! i) as N1 by (intros i Hi; unfold s1; by rewrite list_lookup_insert_ne).
  assert (∀ i, i ≠ k → s2 !! i = s !! i) as N2 by (intros i Hi; unfold s2; rewrite list_lookup_insert_ne by done; by apply N1).
  assert (∀ i lo up, s1 !! i = Some (Plain lo up) → s !! i = Some (Plain lo up)) as P1.
  { intros i lo up H. destruct (decide (i = k)) as [-> |Ne]; [congruence|by rewrite <- N1]. }
  assert (∀ i lo up, s2 !! i = Some (Plain lo up) → s !! i = Some (Plain lo up)) as P2.
  { intros i lo up H. destruct (decide (i = k)) as [-> |Ne]; [congruence|by rewrite <- N2]. }
  assert (∀ i lo up, s !! i = Some (Plain lo up) → s2 !! i = Some (Plain lo up)) as P3.
  { intros i lo up H. destruct (decide (i = k)) as [-> |Ne]; [congruence|by rewrite N2]. }
  assert (placements_ok s1) as Ho1.
  { intros i ds c0 t0 j0 H M. destruct (decide (i = k)) as [-> |Ne]; [|rewrite N1 in H by done; by eapply Ho].
    rewrite E1 in H. injection H as <- <-. apply elem_of_app in M as [M|M%elem_of_list_singleton]; [by eapply Ho|]. by injection M as -> ->. }
  assert (placements_ok s2) as Ho2.
  { intros i ds c0 t0 j0 H M. destruct (decide (i = k)) as [-> |Ne]; [|rewrite N2 in H by done; by eapply Ho].
    rewrite E2 in H. injection H as <- <-. eapply Ho1; [exact E1|done]. }
  assert (∀ i p, in_vol shape s2 i p → in_vol shape s1 i p) as I12.
  { intros i p I. induction I as [i lo up p H S|i ds c0 t0 j0 p H M I IH].
    - destruct (decide (i = k)) as [-> |Ne]; [congruence|]. eapply In_plain; [rewrite N1 by done; rewrite N2 in H by done; exact H|done].
    - destruct (decide (i = k)) as [-> |Ne]; [rewrite E2 in H; injection H as <- <-; eapply In_assembly; [exact E1|done|done]|].
      eapply In_assembly; [rewrite N1 by done; rewrite N2 in H by done; exact H|done|done]. }
  split; [|split; [|split; [apply P2|apply P3]]].
  - split; [done|]. intros i ds c0 p H I. destruct (decide (i = k)) as [-> |Ne].
    + rewrite E2 in H. injection H as <- <-. apply I12 in I.
      destruct (extent_ok s1 ltac:(intros i lo up q Q1 Q2; eapply Hs; [by apply P1|done]) Ho1 k p I fuel b Eb) as [_ Q]. by eapply Q.
    + rewrite N2 in H by done. eapply Hc; [exact H|]. eapply (in_vol_local s s2); [|by apply N2|exact I].
      intros m Hm. apply N2. intros ->. done.
  - intros i lo up p H S. eapply Hs; [by apply P2|done].
Qed.
Lemma built_good fuel s0 s : shapes_ok s0 → built inf fuel s0 s → good s ∧ shapes_ok s ∧ ∀ i lo up, s !! i = Some (Plain lo up) ↔ s0 !! i = Some (Plain lo up).
Proof.
  intros Hs0 B. induction B as [s Hn|s0 s s' k t j B IH Ht Hp Hkj E].
  - split; [|done]. split.
    + intros k daus c t j H M. destruct (Hn _ _ H) as [(lo & up & K)|K]; [done|]. injection K as -> ->. by apply elem_of_nil in M.
    + intros k daus c p H I. destruct (Hn _ _ H) as [(lo & up & K)|K]; [done|]. injection K as -> ->. inversion I as [|? ? ? ? ? ? H' M]; [congruence|]. assert (daus = []) as -> by congruence. by apply elem_of_nil in M.
  - destruct (IH Hs0) as (G & S & P). destruct (place_good fuel s k t j s' S G Ht Hp Hkj E) as (G' & S' & P'). split; [done|]. split; [done|]. intros i lo up. rewrite P'. apply P.
Qed.
Lemma contains_ok s : good s → ∀ fuel k p r, contains shape fuel s k p = Some r → (r = true ↔ in_vol shape s k p).
Proof.
  intros [Ho Hc]. induction fuel as [|f IH]; intros k p r E; [done|]. cbn [contains] in E. destruct (s !! k) as [[lo up|daus c]|] eqn:Ek; cbn [mbind option_bind] in E; [| |done].
  - injection E as <-. split; [intros S; by eapply In_plain|]. intros I. inversion I; [done|congruence].
  - destruct (abbox_contains c p) eqn:Eb.
    + destruct (mapM _ daus) as [bs|] eqn:EM; [|done]. cbn in E. injection E as <-. rewrite existsb_exists. split.
      * intros (x & Hx & ->). apply elem_of_list_In in Hx. destruct (mapM_elem_r _ _ _ _ EM Hx) as ([t j] & E & M). cbn in E. eapply In_assembly; [done|done|]. by apply (IH _ _ _ E).
      * intros I. inversion I as [|? ds c0 t j ? H M I']; subst; [congruence|]. rewrite Ek in H. injection H as <- <-. destruct (mapM_elem _ _ _ _ EM M) as (y & Ey & My). cbn in Ey.
        exists y. split; [by apply elem_of_list_In|]. by apply (IH _ _ _ Ey).
    + injection E as <-. split; [done|]. intros I. apply (Hc _ _ _ _ Ek) in I. apply contains_interior in I. congruence.
Qed.
End Store.
(** ** Tight boxes *)
Lemma span_fold (P : v3 → Prop) l b : (∀ q, q ∈ l → P q) →
  (vx (bmin (foldl extend_box b l)) = vx (bmin b) ∨ ∃ q, P q ∧ vx q = vx (bmin (foldl extend_box b l))) ∧ (vy (bmin (foldl extend_box b l)) = vy (bmin b) ∨ ∃ q, P q ∧ vy q = vy (bmin (foldl extend_box b l))) ∧
  (vz (bmin (foldl extend_box b l)) = vz (bmin b) ∨ ∃ q, P q ∧ vz q = vz (bmin (foldl extend_box b l))) ∧ (vx (bmax (foldl extend_box b l)) = vx (bmax b) ∨ ∃ q, P q ∧ vx q = vx (bmax (foldl extend_box b l))) ∧
  (vy (bmax (foldl extend_box b l)) = vy (bmax b) ∨ ∃ q, P q ∧ vy q = vy (bmax (foldl extend_box b l))) ∧ (vz (bmax (foldl extend_box b l)) = vz (bmax b) ∨ ∃ q, P q ∧ vz q = vz (bmax (foldl extend_box b l))).
Proof.
  intros H. assert (∀ (f : aabb → R) (g : v3 → R), (∀ b c, f (extend_box b c) = f b ∨ f (extend_box b c) = g c) → f (foldl extend_box b l) = f b ∨ ∃ q : v3, P q ∧ g q = f (foldl extend_box b l)) as K.
  { intros f g Hf. destruct (fold_attained f g Hf l b) as [E|(c & Hc & E)]; [by left|right; exists c; auto]. }
  split; [|split; [|split; [|split; [|split]]]].
  - apply (K (λ b, vx (bmin b)) vx). intros. apply min_cases.
  - apply (K (λ b, vy (bmin b)) vy). intros. apply min_cases.
  - apply (K (λ b, vz (bmin b)) vz). intros. apply min_cases.
  - apply (K (λ b, vx (bmax b)) vx). intros. apply max_cases.
  - apply (K (λ b, vy (bmax b)) vy). intros. apply max_cases.
  - apply (K (λ b, vz (bmax b)) vz). intros. apply max_cases.
Qed.
Lemma corner_in b q : proper b → is_corner b q → in_box b q.
Proof. unfold proper, is_corner, in_box. intros (? & ? & ?) ([-> | ->] & [-> | ->] & [-> | ->]); lra. Qed.
Lemma shrunk_abbox inf lower upper t : shrunk (1 / 1000) (compute_abbox inf lower upper t) = foldl extend_box (Box (V3 inf inf inf) (V3 (- inf) (- inf) (- inf))) (inverse_transform t <$> abbox_corners lower upper).
Proof.
  unfold shrunk, compute_abbox; cbn [bmin bmax]. set (b := foldl _ _ _). destruct b as [[a1 a2 a3] [b1 b2 b3]]. cbn. f_equal; apply v3_eq; cbn; ring.
Qed.
Lemma abbox_right inf lower upper t K : - inf <= K → (∀ q, is_corner (Box lower upper) q → vx (inverse_transform t q) <= K) → vx (bmax (compute_abbox inf lower upper t)) <= K + 1 / 1000.
Proof.
  intros Hi H. unfold compute_abbox; cbn [bmax vadd vx]. set (l := _ <$> _).
  assert (∀ c, c ∈ l → vx c <= K) as Hl by (intros c Hc; unfold l in Hc; apply elem_of_list_fmap in Hc as (k & -> & Hk); apply corners_elem in Hk; by apply H).
  clearbody l. destruct (fold_attained (λ b, vx (bmax b)) vx (λ b c, max_cases _ _) l (Box (V3 inf inf inf) (V3 (- inf) (- inf) (- inf)))) as [E1|(c & Hc & E1)]; cbn in E1.
  - rewrite E1. lra.
  - rewrite <- E1. specialize (Hl c Hc). lra.
Qed.
