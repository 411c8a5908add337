(** Lemmas on the point-in-polygon test by crossings. *)
From Coq Require Import Reals Lra Lia Bool ZArith Psatz.
From stdpp Require Import base list list_numbers option numbers tactics.
From Verif Require Import Real3 BoxModel AABBModel PlanesModel PlanesProofs PolygonModel PolygonSpec PolygonProofs PolygonProofs2.
Import stdpp.list.
Local Open Scope R_scope.

(** Parities *)
Definition parity {A} (f : A → bool) (l : list A) : bool := foldr (λ a r, xorb (f a) r) false l.
Lemma parity_cons {A} (f : A → bool) a l : parity f (a :: l) = xorb (f a) (parity f l).
Proof. done. Qed.
Lemma parity_app {A} (f : A → bool) l k : parity f (l ++ k) = xorb (parity f l) (parity f k).
Proof. induction l as [|a l IH]; [symmetry; apply xorb_false_l|]. cbn [app]. by rewrite !parity_cons, IH, xorb_assoc. Qed.
Lemma parity_perm {A} (f : A → bool) l k : Permutation l k → parity f l = parity f k.
Proof. induction 1; [done|by rewrite !parity_cons, IHPermutation|rewrite !parity_cons; by destruct (f x), (f y), (parity f l)|congruence]. Qed.
Lemma parity_map {A B} (f : B → bool) (g : A → B) l : parity f (map g l) = parity (λ a, f (g a)) l.
Proof. induction l as [|a l IH]; [done|]. cbn [map]. by rewrite !parity_cons, IH. Qed.
Lemma parity_ext {A} (f g : A → bool) l : (∀ a, In a l → f a = g a) → parity f l = parity g l.
Proof. induction l as [|a l IH]; intros H; [done|]. rewrite !parity_cons, H by (by left). f_equal. apply IH. intros; apply H; by right. Qed.
Lemma odd_reflect {A} (Q : A → Prop) (f : A → bool) l : (∀ a, In a l → f a = true ↔ Q a) → parity f l = true ↔ odd_many Q l.
Proof.
  induction l as [|a l IH]; intros H; cbn [odd_many]; [done|]. rewrite parity_cons. specialize (IH ltac:(intros; apply H; by right)).
  specialize (H a ltac:(by left)). destruct (f a), (parity f l); cbn; intuition (try congruence).
Qed.
Lemma contains_parity P px py : contains P px py = parity (flips px py) (pg_edges P).
Proof.
  unfold contains. assert (G : ∀ l b, foldl (λ r e, xorb (flips px py e) r) b l = xorb b (parity (flips px py) l)).
  { induction l as [|e l IH]; intros b; [by destruct b|]. cbn [foldl]. rewrite IH, parity_cons. by destruct (flips px py e), b, (parity _ l). }
  rewrite G. by destruct (parity _ _).
Qed.
(** Lanes *)
Notation idb := (λ b : bool, b).
Lemma zip_parity : ∀ r l, length r = length l → parity idb (zip_with xorb r l) = xorb (parity idb r) (parity idb l).
Proof.
  induction r as [|a r IH]; intros [|b l] E; cbn in E; try done. cbn [zip_with]. rewrite !parity_cons, IH by lia. cbn. by destruct a, b, (parity idb r), (parity idb l).
Qed.
Lemma blocks_parity kvs px py : ∀ b es r, length r = kvs → (b * kvs <= length es)%nat →
  length (contains_blocks kvs b px py es r) = kvs ∧
  parity idb (contains_blocks kvs b px py es r) = xorb (parity idb r) (parity (flips px py) (take (b * kvs) es)).
Proof.
  induction b as [|b IH]; intros es r Hr Hl; cbn [contains_blocks]; [by rewrite Nat.mul_0_l, xorb_false_r|].
  assert (Lt : length (take kvs es) = kvs) by (rewrite take_length; lia).
  destruct (IH (drop kvs es) (zip_with xorb r (map (flips px py) (take kvs es)))) as [L E].
  - rewrite zip_with_length, map_length. lia.
  - rewrite drop_length. lia.
  - split; [done|]. rewrite E, zip_parity by (rewrite map_length; lia). rewrite parity_map. 
    assert (T : take (S b * kvs) es = take kvs es ++ take (b * kvs) (drop kvs es)).
    { rewrite take_drop_commute. replace (S b * kvs)%nat with (kvs + b * kvs)%nat by lia.
      replace (take kvs es) with (take kvs (take (kvs + b * kvs) es)) by (rewrite take_take; f_equal; lia). by rewrite take_drop. }
    rewrite T, parity_app. by rewrite xorb_assoc.
Qed.
Lemma contains_lanes_same kvs P px py : (0 < kvs)%nat → contains_lanes P kvs px py = contains P px py.
Proof.
  intros Hk. rewrite contains_parity. unfold contains_lanes. set (es := pg_edges P). set (n := length es).
  pose proof (Nat.div_mod n kvs ltac:(lia)) as D.
  destruct (blocks_parity kvs px py (n / kvs) es (replicate kvs false)) as [_ E]; [apply replicate_length|fold n; lia|].
  assert (R : ∀ l b, foldl (λ r (x : bool), if x then negb r else r) b l = xorb b (parity idb l)).
  { induction l as [|x l IH]; intros b; [by destruct b|]. cbn [foldl]. rewrite IH, parity_cons. cbn. by destruct x, b, (parity idb l). }
  rewrite R, E. assert (F : ∀ l b, foldl (λ r e, xorb r (flips px py e)) b l = xorb b (parity (flips px py) l)).
  { induction l as [|x l IH]; intros b; [by destruct b|]. cbn [foldl]. by rewrite IH, parity_cons, xorb_assoc. }
  rewrite F. assert (Z : parity idb (replicate kvs false) = false) by (clear; induction kvs; [done|]; cbn [replicate]; rewrite parity_cons, IHkvs; done).
  rewrite Z, !xorb_false_l. replace (n - n mod kvs)%nat with (n / kvs * kvs)%nat by lia. rewrite <- parity_app, take_drop. done.
Qed.

(** One edge *)
Definition crossx (a b : p2) (y : R) : R := fst a + (y - snd a) / (snd b - snd a) * (fst b - fst a).
Lemma flips_spec px py a b : zero_or kAbsorb (snd b - snd a) →
  flips px py (mk_edge b a) = xorb (rgtb (snd b) py) (rgtb (snd a) py) && rltb px (crossx a b py).
Proof.
  intros Hz. destruct a as [ax ay], b as [bx by_]. unfold flips, mk_edge, crossx. cbn [e_x e_y e_yj e_slope fst snd] in *.
  destruct (rgtb_spec by_ py) as [H1|H1], (rgtb_spec ay py) as [H2|H2]; cbn [xorb andb]; try done.
  - rewrite nz_large by (destruct Hz as [Hz|Hz]; [lra|]; rewrite Rabs_minus_sym; done). f_equal. field. lra.
  - rewrite nz_large by (destruct Hz as [Hz|Hz]; [lra|]; rewrite Rabs_minus_sym; done). f_equal. field. lra.
Qed.
Lemma meets_crossx p a b : meets p (a, b) ↔ (snd a <= snd p < snd b ∨ snd b <= snd p < snd a) ∧ fst p < crossx a b (snd p).
Proof.
  destruct p as [px py]. unfold meets. cbn [fst snd]. split; intros [H1 H2]; (split; [done|]).
  - destruct H2 as (t & Ht & E & H2). unfold way in *. cbn in *. unfold crossx. replace ((py - snd a) / (snd b - snd a)) with t; [done|].
    rewrite <- E. field. lra.
  - exists ((py - snd a) / (snd b - snd a)). unfold way. cbn. split.
    + destruct H1 as [H1|H1].
      * split; [apply Rmult_le_pos; [lra|]; left; apply Rinv_0_lt_compat; lra|]. apply (Rmult_le_reg_r (snd b - snd a)); [lra|]. unfold Rdiv. rewrite Rmult_assoc, Rinv_l by lra. lra.
      * replace ((py - snd a) / (snd b - snd a)) with ((snd a - py) / (snd a - snd b)) by (field; lra).
        split; [apply Rmult_le_pos; [lra|]; left; apply Rinv_0_lt_compat; lra|]. apply (Rmult_le_reg_r (snd a - snd b)); [lra|]. unfold Rdiv. rewrite Rmult_assoc, Rinv_l by lra. lra.
    + split; [field; lra|done].
Qed.
Lemma flips_meets px py a b : zero_or kAbsorb (snd b - snd a) → flips px py (mk_edge b a) = true ↔ meets (px, py) (a, b).
Proof.
  intros Hz. rewrite flips_spec, meets_crossx by done. rewrite andb_true_iff, rltb_true. cbn [fst snd].
  assert (X : xorb (rgtb (snd b) py) (rgtb (snd a) py) = true ↔ (snd a <= py < snd b ∨ snd b <= py < snd a)).
  { destruct (rgtb_spec (snd b) py), (rgtb_spec (snd a) py); cbn; split; intros Hx; try done; try lra; try (destruct Hx; lra). }
  by rewrite X.
Qed.
Lemma meets_dec p s : meets p s ∨ ¬ meets p s.
Proof.
  destruct s as [a b]. rewrite meets_crossx. destruct (Rlt_dec (fst p) (crossx a b (snd p))); [|right; tauto].
  destruct (Rle_dec (snd a) (snd p)), (Rlt_dec (snd p) (snd b)), (Rle_dec (snd b) (snd p)), (Rlt_dec (snd p) (snd a)); try (left; split; [lra|done]); right; lra.
Qed.
Lemma odd_dec p l : odd_many (meets p) l ∨ ¬ odd_many (meets p) l.
Proof. induction l as [|s l IH]; cbn [odd_many]; [tauto|]. pose proof (meets_dec p s). tauto. Qed.
Lemma meets_swap p a b : meets p (a, b) ↔ meets p (b, a).
Proof.
  assert (G : ∀ a b, meets p (a, b) → meets p (b, a)); [|split; apply G]. clear. intros a b (H1 & t & Ht & E & H2). split; [tauto|]. exists (1 - t). split; [lra|].
  unfold way in *. cbn in *. split; lra.
Qed.
Lemma parity_sides P vs px py : pg_edges P = mk_edges vs → contains P px py = parity (λ s, flips px py (side_edge s)) (sides vs).
Proof. intros E. rewrite contains_parity, E, (parity_perm _ _ _ (mk_edges_perm vs)), parity_map. done. Qed.
Lemma contains_odd P vs px py : pg_edges P = mk_edges vs → level_or kAbsorb vs → contains P px py = true ↔ odd_many (meets (px, py)) (sides vs).
Proof.
  intros E Hl. rewrite (parity_sides P vs) by done. apply odd_reflect. intros [a b] Hs. unfold side_edge. cbn [fst snd]. apply flips_meets. by apply Hl.
Qed.
(** The parity does not depend on the direction. *)
Lemma odd_rev p l : odd_many (meets p) (rev (map (λ s, (s.2, s.1)) l)) ↔ odd_many (meets p) l.
Proof.
  assert (App : ∀ l k : list (p2 * p2), odd_many (meets p) (l ++ k) ↔ ¬ (odd_many (meets p) l ↔ odd_many (meets p) k)).
  { induction l0 as [|s l0 IH]; intros k; cbn [odd_many app]; [pose proof (odd_dec p k); tauto|]. rewrite IH. pose proof (odd_dec p k). pose proof (odd_dec p l0).
    pose proof (meets_dec p s). tauto. }
  induction l as [|[a b] l IH]; [done|]. cbn [map rev fst snd]. rewrite App, IH. cbn [odd_many]. rewrite (meets_swap p b a). pose proof (odd_dec p l).
  pose proof (meets_dec p (a, b)). tauto.
Qed.
Lemma odd_clockwise p pts : odd_many (meets p) (sides (clockwise pts)) ↔ odd_many (meets p) (sides pts).
Proof. destruct pts as [|a r]; [done|]. unfold clockwise. destruct (rgtb _ 0); [|done]. rewrite sides_rev. apply odd_rev. Qed.
Lemma level_clockwise c pts : level_or c pts → level_or c (clockwise pts).
Proof.
  intros H a b Hs. apply clockwise_sides in Hs as [Hs|Hs]; [by apply H|]. replace (snd b - snd a) with (- (snd a - snd b)) by ring. by apply zero_or_neg, H.
Qed.

(** Convex polygons: at most one side goes down through a height, and one up *)
Section Convex.
Variable vs : list p2.
Hypothesis Cv : convex_cw vs.
Lemma cross_crossx a b p : snd a ≠ snd b → cross2 a b p = (snd b - snd a) * (crossx a b (snd p) - fst p).
Proof. intros H. unfold cross2, crossx. field. lra. Qed.
Lemma crossx_way a b y : snd a ≠ snd b → (snd a <= y <= snd b ∨ snd b <= y <= snd a) → on_side a b (crossx a b y, y).
Proof.
  intros H Hy. exists ((y - snd a) / (snd b - snd a)). split.
  - destruct (Rlt_dec (snd a) (snd b)).
    + split; [apply Rmult_le_pos; [lra|]; left; apply Rinv_0_lt_compat; lra|]. apply (Rmult_le_reg_r (snd b - snd a)); [lra|]. unfold Rdiv. rewrite Rmult_assoc, Rinv_l by lra. lra.
    + replace ((y - snd a) / (snd b - snd a)) with ((snd a - y) / (snd a - snd b)) by (field; lra).
      split; [apply Rmult_le_pos; [lra|]; left; apply Rinv_0_lt_compat; lra|]. apply (Rmult_le_reg_r (snd a - snd b)); [lra|]. unfold Rdiv. rewrite Rmult_assoc, Rinv_l by lra. lra.
  - apply p2_eq; cbn; [done|]. field. lra.
Qed.
Lemma side_from a b b' : In (a, b) (sides vs) → In (a, b') (sides vs) → b = b'.
Proof.
  destruct Cv as (_ & ND & _). rewrite list_nodup in ND. rewrite !sides_in. intros (i & Hi & E1 & E2) (j & Hj & E3 & E4).
  pose proof (NoDup_lookup _ _ _ _ ND E1 E3) as ->. congruence.
Qed.
Lemma side_to a a' b : In (a, b) (sides vs) → In (a', b) (sides vs) → a = a'.
Proof.
  destruct Cv as (L & ND & _). rewrite list_nodup in ND. rewrite !sides_in. intros (i & Hi & E1 & E2) (j & Hj & E3 & E4).
  pose proof (NoDup_lookup _ _ _ _ ND E2 E4) as E. assert (i = j) as ->; [|congruence].
  destruct (decide (i + 1 = length vs)%nat) as [Ei|Ei], (decide (j + 1 = length vs)%nat) as [Ej|Ej]; [lia| | |].
  - rewrite Ei, Nat.mod_same, Nat.mod_small in E by lia. lia.
  - rewrite Ej, Nat.mod_same, Nat.mod_small in E by lia. lia.
  - rewrite !Nat.mod_small in E by lia. lia.
Qed.
(** Sides through the same point of a height in the same direction are the same. *)
Lemma same_crossing a b c d y : In (a, b) (sides vs) → In (c, d) (sides vs) → snd a ≠ snd b →
  (snd d <= y < snd c ∨ snd c <= y < snd d) → cross2 a b (crossx c d y, y) = 0 → (c = a ∨ d = b ∨ c = b ∨ d = a).
Proof.
  intros Hab Hcd Hn Hy E. destruct (crossx_way c d y) as (t & Ht & Ep); [lra|lra|]. rewrite Ep in E. rewrite cross2_way in E.
  pose proof (sides_ends _ _ _ Hcd) as [Ic Id]. pose proof Cv as (_ & _ & C).
  destruct (p2_dec c a); [by left|]. destruct (p2_dec d b); [by auto|]. destruct (p2_dec c b); [by auto|]. destruct (p2_dec d a); [by auto|].
  exfalso. pose proof (C a b c Hab Ic) as G1. pose proof (C a b d Hab Id) as G2. specialize (G1 ltac:(done) ltac:(done)). specialize (G2 ltac:(done) ltac:(done)). nra.
Qed.
Lemma one_down a b c d y : In (a, b) (sides vs) → In (c, d) (sides vs) → snd b <= y < snd a → snd d <= y < snd c → (a, b) = (c, d).
Proof.
  intros Hab Hcd H1 H2.
  assert (K : ∀ a b c d, In (a, b) (sides vs) → In (c, d) (sides vs) → snd b <= y < snd a → snd d <= y < snd c → crossx c d y <= crossx a b y).
  { clear a b c d Hab Hcd H1 H2. intros a b c d Hab Hcd H1 H2.
    assert (Hr : cross2 a b (crossx c d y, y) <= 0).
    { apply (hull_right vs); [intros v Hv; by eapply convex_right|]. apply border_hull. exists c, d. split; [done|]. apply crossx_way; lra. }
    rewrite cross_crossx in Hr by lra. cbn in Hr. nra. }
  pose proof (K a b c d Hab Hcd H1 H2) as K1. pose proof (K c d a b Hcd Hab H2 H1) as K2.
  assert (E : cross2 a b (crossx c d y, y) = 0) by (rewrite cross_crossx by lra; cbn; replace (crossx a b y) with (crossx c d y) by lra; ring).
  destruct (same_crossing a b c d y Hab Hcd) as [E1|[E1|[E1|E1]]]; [lra|lra|done|subst c|subst d|subst; lra|subst; lra].
  - f_equal. by eapply side_from.
  - f_equal. by eapply side_to.
Qed.
Lemma one_up a b c d y : In (a, b) (sides vs) → In (c, d) (sides vs) → snd a <= y < snd b → snd c <= y < snd d → (a, b) = (c, d).
Proof.
  intros Hab Hcd H1 H2.
  assert (K : ∀ a b c d, In (a, b) (sides vs) → In (c, d) (sides vs) → snd a <= y < snd b → snd c <= y < snd d → crossx a b y <= crossx c d y).
  { clear a b c d Hab Hcd H1 H2. intros a b c d Hab Hcd H1 H2.
    assert (Hr : cross2 a b (crossx c d y, y) <= 0).
    { apply (hull_right vs); [intros v Hv; by eapply convex_right|]. apply border_hull. exists c, d. split; [done|]. apply crossx_way; lra. }
    rewrite cross_crossx in Hr by lra. cbn in Hr. nra. }
  pose proof (K a b c d Hab Hcd H1 H2) as K1. pose proof (K c d a b Hcd Hab H2 H1) as K2.
  assert (E : cross2 a b (crossx c d y, y) = 0) by (rewrite cross_crossx by lra; cbn; replace (crossx a b y) with (crossx c d y) by lra; ring).
  destruct (same_crossing a b c d y Hab Hcd) as [E1|[E1|[E1|E1]]]; [lra|lra|done|subst c|subst d|subst; lra|subst; lra].
  - f_equal. by eapply side_from.
  - f_equal. by eapply side_to.
Qed.
(** A cyclic list with members on both sides has a change each way. *)
Lemma chain_change (f : p2 → bool) : ∀ l a, f a ≠ f (List.last l a) → ∃ x y, In (x, y) (chain a l) ∧ f x = f a ∧ f y = negb (f a).
Proof.
  induction l as [|b l IH]; intros a H; [done|]. rewrite last_cons_default in H. destruct (bool_dec (f b) (f a)) as [E|E].
  - destruct (IH b) as (x & y & Hi & H1 & H2); [congruence|]. exists x, y. split; [by right|]. by rewrite <- E.
  - exists a, b. split; [by left|]. split; [done|]. destruct (f b), (f a); done.
Qed.
Lemma chain_app a l b k : chain a (l ++ b :: k) = chain a (l ++ [b]) ++ chain b k.
Proof. revert a. induction l as [|c l IH]; intros a; [done|]. cbn [app chain]. by rewrite IH. Qed.
Lemma cyclic_change (f : p2 → bool) x y : In x vs → In y vs → f x = true → f y = false →
  (∃ a b, In (a, b) (sides vs) ∧ f a = true ∧ f b = false) ∧ (∃ a b, In (a, b) (sides vs) ∧ f a = false ∧ f b = true).
Proof.
  intros Hx Hy Fx Fy. destruct vs as [|o r]; [done|]. cbn [sides].
  assert (G : ∀ z, In z r → f z ≠ f o → (∃ a b, In (a, b) (chain o (r ++ [o])) ∧ f a = f o ∧ f b = negb (f o)) ∧ ∃ a b, In (a, b) (chain o (r ++ [o])) ∧ f a = negb (f o) ∧ f b = f o).
  { intros z Hz Fz. apply in_split in Hz as (l1 & l2 & ->). rewrite <- app_assoc. cbn [app]. rewrite chain_app. split.
    - destruct (chain_change f (l1 ++ [z]) o) as (a & b & Hi & H1 & H2); [by rewrite List.last_last|]. exists a, b. rewrite in_app_iff. auto.
    - destruct (chain_change f (l2 ++ [o]) z) as (a & b & Hi & H1 & H2); [by rewrite List.last_last|]. exists a, b. rewrite in_app_iff. split; [by right|].
      rewrite H1, H2. destruct (f z), (f o); done. }
  destruct (f o) eqn:Fo.
  - destruct Hy as [->|Hy]; [congruence|]. apply (G y Hy). congruence.
  - destruct Hx as [->|Hx]; [congruence|]. destruct (G x Hx) as [? ?]; [congruence|]. split; done.
Qed.
(** The sides other than one down and one up do not flip. *)
Lemma parity_two (f : p2 * p2 → bool) s1 s2 : s1 ≠ s2 → In s1 (sides vs) → In s2 (sides vs) → (∀ s, In s (sides vs) → s ≠ s1 → s ≠ s2 → f s = false) →
  parity f (sides vs) = xorb (f s1) (f s2).
Proof.
  intros Hn H1 H2 H. assert (ND : base.NoDup (sides vs)).
  { rewrite sides_zip. apply (NoDup_fmap_1 fst). rewrite fst_zip by (rewrite length_nexts; lia). apply list_nodup. apply Cv. }
  apply elem_of_list_In, elem_of_Permutation in H1 as [l1 P1]. rewrite (parity_perm _ _ _ P1).
  assert (H2' : In s2 (s1 :: l1)) by (by eapply Permutation_in). destruct H2' as [?|H2']; [done|]. apply elem_of_list_In, elem_of_Permutation in H2' as [l2 P2].
  rewrite parity_cons, (parity_perm _ _ _ P2), parity_cons.
  assert (Z : parity f l2 = false); [|by rewrite Z, xorb_false_r].
  rewrite P1, P2 in ND. apply NoDup_cons in ND as [N1 ND]. apply NoDup_cons in ND as [N2 _].
  assert (K : ∀ s, In s l2 → f s = false).
  { intros s Hs. apply H.
    - eapply Permutation_in; [symmetry; exact P1|]. right. eapply Permutation_in; [symmetry; exact P2|]. by right.
    - intros ->. apply N1. right. by apply elem_of_list_In.
    - intros ->. apply N2. by apply elem_of_list_In. }
  clear -K. induction l2 as [|s l IH]; [done|]. rewrite parity_cons, K by (by left). rewrite IH; [done|]. intros; apply K; by right.
Qed.
Lemma parity_none (f : p2 * p2 → bool) l : (∀ s, In s l → f s = false) → parity f l = false.
Proof. induction l as [|s l IH]; intros K; [done|]. rewrite parity_cons, K by (by left). rewrite IH; [done|]. intros; apply K; by right. Qed.
Lemma hull_height_below y : (∀ v, In v vs → snd v <= y) → ∀ p, hull vs p → snd p <= y.
Proof. intros H p. induction 1; [by apply H|]. cbn. nra. Qed.
Lemma hull_height_above y : (∀ v, In v vs → y < snd v) → ∀ p, hull vs p → y < snd p.
Proof.
  intros H p. induction 1 as [|p q t Hp IHp Hq IHq Ht]; [by apply H|]. cbn. destruct (Rle_dec (snd p) (snd q)); [nra|].
  assert (snd q <= snd p + t * (snd q - snd p)) by nra. lra.
Qed.
(** Inside there is room upwards. *)
Lemma inner_up px py : inner vs (px, py) → ∃ e, 0 < e ∧ inner vs (px, py + e).
Proof.
  intros H. rewrite inner_iff in H by done.
  assert (G : ∀ l, (∀ a b, In (a, b) l → cross2 a b (px, py) < 0) → ∃ e, 0 < e ∧ ∀ a b, In (a, b) l → ∀ e', 0 <= e' <= e → cross2 a b (px, py + e') < 0).
  { induction l as [|[a b] l IH]; intros K; [exists 1; split; [lra|done]|]. destruct IH as (e & He & IH); [intros; apply K; by right|].
    specialize (K a b ltac:(by left)). set (w := Rabs (fst b - fst a)). assert (Hw : 0 <= w) by apply Rabs_pos.
    set (e2 := - cross2 a b (px, py) / (2 * (w + 1))). assert (He2 : 0 < e2) by (unfold e2; apply Rmult_lt_0_compat; [lra|]; apply Rinv_0_lt_compat; lra).
    exists (Rmin e e2). split; [by apply Rmin_pos|]. intros c d [E|Hi] e' He'.
    - injection E as <- <-. assert (He3 : e' <= e2) by (pose proof (Rmin_r e e2); lra).
      assert (E : cross2 a b (px, py + e') = cross2 a b (px, py) + (fst b - fst a) * e') by (unfold cross2; cbn; ring). rewrite E.
      assert ((fst b - fst a) <= w) by apply Rle_abs. assert (w * e2 <= - cross2 a b (px, py) / 2).
      { unfold e2. apply (Rmult_le_reg_r (2 * (w + 1))); [lra|]. replace (w * (- cross2 a b (px, py) / (2 * (w + 1))) * (2 * (w + 1))) with (w * - cross2 a b (px, py)) by (field; lra). nra. }
      nra.
    - apply (IH c d Hi). pose proof (Rmin_l e e2). lra. }
  destruct (G (sides vs) H) as (e & He & K). exists e. split; [done|]. apply inner_iff; [done|]. intros a b Hs. apply (K a b Hs). lra.
Qed.
(** Crossing parity of convex polygons, off the border. *)
Lemma parity_convex px py : level_or kAbsorb vs → ¬ border vs (px, py) →
  parity (λ s, flips px py (side_edge s)) (sides vs) = true ↔ hull vs (px, py).
Proof.
  intros Hl Hb. set (f := λ s, flips px py (side_edge s)). set (up := λ v : p2, rgtb (snd v) py).
  assert (Fs : ∀ a b, In (a, b) (sides vs) → f (a, b) = xorb (up b) (up a) && rltb px (crossx a b py)).
  { intros a b Hs. unfold f, side_edge. cbn [fst snd]. apply flips_spec. by apply Hl. }
  assert (Up : ∀ v, up v = true ↔ py < snd v) by (intros v; unfold up; destruct (rgtb_spec (snd v) py); split; intros; try done; lra).
  assert (Dn : ∀ v, up v = false ↔ snd v <= py) by (intros v; unfold up; destruct (rgtb_spec (snd v) py); split; intros; try done; lra).
  destruct (decide (Exists (λ v, up v = true) vs)) as [Hu|Hu].
  2: { (* nobody above *)
    assert (Z : ∀ v, In v vs → up v = false).
    { intros v Hv. destruct (up v) eqn:E; [|done]. exfalso. apply Hu, Exists_exists. exists v. split; [by apply elem_of_list_In|done]. }
    rewrite parity_none.
    - split; [done|]. intros Hh. exfalso. assert (Hin : inner vs (px, py)) by done. destruct (inner_up px py Hin) as (e & He & [He' _]).
      apply (hull_height_below py) in He'; [cbn in He'; lra|]. intros v Hv. by apply Dn, Z.
    - intros [a b] Hs. rewrite Fs by done. pose proof (sides_ends _ _ _ Hs) as [Ia Ib]. by rewrite (Z a), (Z b). }
  destruct (decide (Exists (λ v, up v = false) vs)) as [Hd|Hd].
  2: { (* everybody above *)
    assert (Z : ∀ v, In v vs → up v = true).
    { intros v Hv. destruct (up v) eqn:E; [done|]. exfalso. apply Hd, Exists_exists. exists v. split; [by apply elem_of_list_In|done]. }
    rewrite parity_none.
    - split; [done|]. intros Hh. exfalso. apply (hull_height_above py) in Hh; [cbn in Hh; lra|]. intros v Hv. by apply Up, Z.
    - intros [a b] Hs. rewrite Fs by done. pose proof (sides_ends _ _ _ Hs) as [Ia Ib]. by rewrite (Z a), (Z b). }
  apply Exists_exists in Hu as (x & Ix & Fx). apply Exists_exists in Hd as (y & Iy & Fy). rewrite elem_of_list_In in Ix. rewrite elem_of_list_In in Iy.
  destruct (cyclic_change up x y Ix Iy Fx Fy) as [(a & b & Hab & Fa & Fb) (c & d & Hcd & Fc & Fd)].
  assert (Ya : py < snd a) by (by apply Up). assert (Yb : snd b <= py) by (by apply Dn). assert (Yc : snd c <= py) by (by apply Dn). assert (Yd : py < snd d) by (by apply Up).
  rewrite (parity_two f (a, b) (c, d)); [|intros E; injection E as -> ->; congruence|done|done|].
  - rewrite !Fs by done. rewrite Fa, Fb, Fc, Fd. cbn [xorb andb].
    assert (Hdown : cross2 a b (px, py) = (snd b - snd a) * (crossx a b py - px)) by (apply cross_crossx; lra).
    assert (Hup : cross2 c d (px, py) = (snd d - snd c) * (crossx c d py - px)) by (apply cross_crossx; lra).
    assert (B1 : hull vs (crossx a b py, py)) by (apply border_hull; exists a, b; split; [done|apply crossx_way; lra]).
    assert (B2 : hull vs (crossx c d py, py)) by (apply border_hull; exists c, d; split; [done|apply crossx_way; lra]).
    assert (Bt : ∀ u v, hull vs (u, py) → hull vs (v, py) → u <= px <= v → hull vs (px, py)).
    { intros u v Hu Hv Huv. destruct (Req_dec u v) as [->|Hne]; [replace px with v by lra; done|].
      replace (px, py) with (way (u, py) (v, py) ((px - u) / (v - u))) by (apply p2_eq; cbn; field; lra). apply hull_way; [done|done|].
      split; [apply Rmult_le_pos; [lra|]; left; apply Rinv_0_lt_compat; lra|]. apply (Rmult_le_reg_r (v - u)); [lra|]. unfold Rdiv. rewrite Rmult_assoc, Rinv_l by lra. lra. }
    split.
    + destruct (rltb_spec px (crossx a b py)), (rltb_spec px (crossx c d py)); cbn; intros E; try done.
      * apply (Bt (crossx c d py) (crossx a b py)); [done|done|lra].
      * apply (Bt (crossx a b py) (crossx c d py)); [done|done|lra].
    + intros Hh. assert (Hin : inner vs (px, py)) by done. rewrite inner_iff in Hin by done.
      pose proof (Hin a b Hab) as K1. pose proof (Hin c d Hcd) as K2. rewrite Hdown in K1. rewrite Hup in K2.
      destruct (rltb_spec px (crossx a b py)) as [G1|G1]; [|exfalso; nra]. destruct (rltb_spec px (crossx c d py)) as [G2|G2]; [exfalso; nra|done].
  - intros [p q] Hpq N1 N2. rewrite Fs by done. destruct (up p) eqn:Fp, (up q) eqn:Fq; cbn; try done; exfalso.
    + apply N1. symmetry. apply (one_down a b p q py); [done|done|lra|]. apply Up in Fp. apply Dn in Fq. lra.
    + apply N2. symmetry. apply (one_up c d p q py); [done|done|lra|]. apply Dn in Fp. apply Up in Fq. lra.
Qed.
End Convex.
