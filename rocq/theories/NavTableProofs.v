From stdpp Require Import list option gmap fin_maps.
From Coq Require Import NArith ZArith Lia ZifyN ZifyBool ZifyNat.
From Verif Require Import NavTableModel NavTableSpec.
Local Open Scope N_scope.

Local Arguments N.mul : simpl never.
Local Arguments N.add : simpl never.
Local Arguments N.modulo : simpl never.
Local Arguments N.div : simpl never.
Local Arguments N.of_nat : simpl never.
Local Arguments N.land : simpl never.
Local Arguments N.to_nat : simpl never.
Local Arguments N.ltb : simpl never.

Lemma land_1 n : N.land n 1 = n mod 2.
Proof. change 1 with (N.ones 1) at 1. by rewrite N.land_ones. Qed.
Lemma dind_len_even nd : dind_len nd mod 2 = 0.
Proof.
  unfold dind_len. rewrite land_1. Ltac Zify.zify_post_hook ::= Z.div_mod_to_equations. lia.
Qed.
Lemma dind_len_ge nd : 3 + nd ≤ dind_len nd.
Proof. unfold dind_len. lia. Qed.

Section Proofs.
Context {T : Type} (G : geo T) (TO : tops T) (r limit : N).
Hypothesis Hr : r = 1 ∨ r = 2.

Notation nd_of := (nd_of G).
Notation cached := (cached G limit).
Notation padded := (padded r).
Notation path_matrix := (path_matrix G TO).
Notation hasm_of := (hasm_of TO).

Lemma padded_zero n : n mod r = 0 → padded n = 0.
Proof. unfold NavTableModel.padded. destruct Hr as [-> | ->]; intros; case_match; lia. Qed.
Lemma padded_aligns n : (n + padded n) mod r = 0.
Proof. unfold NavTableModel.padded. destruct Hr as [-> | ->]; intros; case_match; lia. Qed.
Lemma even_aligned n : n mod 2 = 0 → n mod r = 0.
Proof. destruct Hr as [-> | ->]; lia. Qed.
Lemma aligned_add a b : a mod r = 0 → b mod r = 0 → (a + b) mod r = 0.
Proof. destruct Hr as [-> | ->]; lia. Qed.
Lemma aligned_12 : (12 * r) mod r = 0.
Proof. destruct Hr as [-> | ->]; lia. Qed.

Ltac Zify.zify_post_hook ::= idtac.

(** * Layout *)
Definition nlen (c p level : N) : N :=
  let di := dind_len (nd_of p) in
  di + (if cached p level then padded (c + di) + 12 * r else 0).
Fixpoint wsub (f : nat) (p level : N) : N :=
  match f with
  | O => 0
  | S f' => dind_len (nd_of p) + (if cached p level then 12 * r else 0)
            + foldr (λ d acc, wsub f' d (level + 1) + acc) 0 (g_dau G p)
  end.
Definition sumw (f : nat) (level : N) (ds : list N) : N := foldr (λ d acc, wsub f d level + acc) 0 ds.
Lemma sumw_app f level l1 l2 : sumw f level (l1 ++ l2) = sumw f level l1 + sumw f level l2.
Proof. unfold sumw. induction l1 as [|d l1 IH]; cbn [app foldr]; [by rewrite N.add_0_l|]. rewrite IH. lia. Qed.

Lemma nlen_aligned c p level : c mod r = 0 → nlen c p level = dind_len (nd_of p) + (if cached p level then 12 * r else 0).
Proof.
  intros. unfold nlen. rewrite padded_zero; [destruct (cached p level); lia|].
  apply aligned_add; [done|]. apply even_aligned, dind_len_even.
Qed.
Lemma wsub_S f c p level : c mod r = 0 → wsub (S f) p level = nlen c p level + sumw f (level + 1) (g_dau G p).
Proof. intros. rewrite nlen_aligned by done. done. Qed.
Lemma nlen_end_aligned c p level : cached p level = true ∨ c mod r = 0 → (c + nlen c p level) mod r = 0.
Proof.
  intros H. unfold nlen. destruct (cached p level) eqn:E.
  - pose proof (padded_aligns (c + dind_len (nd_of p))) as Hp.
    replace (c + _) with (c + dind_len (nd_of p) + padded (c + dind_len (nd_of p)) + 12 * r) by lia.
    apply aligned_add; [done|apply aligned_12].
  - destruct H as [H|H]; [done|]. rewrite N.add_0_r. apply aligned_add; [done|]. apply even_aligned, dind_len_even.
Qed.
Lemma wsub_aligned f p level : wsub f p level mod r = 0.
Proof.
  revert p level. induction f as [|f IH]; intros p level; [by destruct Hr as [-> | ->]|].
  assert (0 mod r = 0) as H0 by (by destruct Hr as [-> | ->]).
  rewrite (wsub_S f 0) by done. apply aligned_add.
  - pose proof (nlen_end_aligned 0 p level) as H. rewrite N.add_0_l in H. apply H. by right.
  - unfold sumw. induction (g_dau G p) as [|d ds IHd]; cbn; [done|]. apply aligned_add; [apply IH|apply IHd].
Qed.
Lemma sumw_aligned f level ds : sumw f level ds mod r = 0.
Proof.
  assert (0 mod r = 0) as H0 by (by destruct Hr as [-> | ->]).
  induction ds as [|d ds IHd]; [done|]. cbn. apply aligned_add; [apply wsub_aligned|done].
Qed.
Lemma sumw_take_le f level ds k d : ds !! k = Some d →
  sumw f level (take k ds) + wsub f d level ≤ sumw f level ds.
Proof.
  intros H. pose proof (take_drop_middle ds k d H) as E. rewrite <-E at 2.
  rewrite sumw_app. cbn. fold (sumw f level (drop (S k) ds)). lia.
Qed.
Lemma sumw_take_mono f level ds j k d : ds !! j = Some d → (j < k)%nat →
  sumw f level (take j ds) + wsub f d level ≤ sumw f level (take k ds).
Proof.
  intros H Hjk. assert (take k ds !! j = Some d) as H' by (by rewrite lookup_take).
  pose proof (sumw_take_le f level _ _ _ H') as L. rewrite take_take in L.
  by replace (j `min` k)%nat with j in L by lia.
Qed.

(** * Sizing pass *)
Lemma apply_count_spec c s p level m d : cached p level = true ∨ c mod r = 0 →
  apply_count G r limit (4 * c) (s ++ [p]) level m d = Some (4 * (c + nlen c p level), 0).
Proof.
  intros H. unfold apply_count. rewrite last_snoc. cbn.
  replace (4 * c / 4) with c by (rewrite N.mul_comm, N.div_mul; lia).
  f_equal. f_equal. unfold nlen. destruct (cached p level) eqn:E; [lia|].
  destruct H as [|H]; [done|]. rewrite padded_zero; [lia|].
  apply aligned_add; [done|]. apply even_aligned, dind_len_even.
Qed.

Context (rank : N → nat) (Hac : acyclic G rank).
Lemma rank_dau p d f : d ∈ g_dau G p → (rank p < S f)%nat → (rank d < f)%nat.
Proof. intros Hd Hf. pose proof (Hac p d Hd). lia. Qed.

Lemma count_visit f : ∀ p c s level m i, (rank p < f)%nat → cached p level = true ∨ c mod r = 0 →
  visit G (apply_count G r limit) f p (4 * c) s level m i =
    Some (4 * (c + nlen c p level + sumw (pred f) (level + 1) (g_dau G p))).
Proof.
  induction f as [|f IH]; intros p c s level m i Hf Hc; [lia|].
  cbn [visit]. rewrite apply_count_spec by done. cbn [mbind option_bind]. cbn [pred].
  pose proof (nlen_end_aligned c p level Hc) as Hal.
  set (c1 := c + nlen c p level) in *. clearbody c1.
  assert (∀ d, d ∈ g_dau G p → (rank d < f)%nat) as Hd by (intros; by eapply rank_dau).
  assert (∀ nm j, loop (λ d i st, visit G (apply_count G r limit) f d st (s ++ [p]) (level + 1) nm i) (g_dau G p) j (4 * c1)
    = Some (4 * (c1 + sumw f (level + 1) (g_dau G p)))) as HL; [|apply HL].
  intros nm. revert c1 Hal Hd.
  induction (g_dau G p) as [|d ds IHd]; intros c1 Hal Hd j; cbn [loop]; [unfold sumw; cbn; f_equal; lia|].
  rewrite IH; [|apply Hd; by left|by right]. cbn [mbind option_bind].
  destruct f as [|f]; [specialize (Hd d (elem_of_list_here _ _)); lia|]. cbn [pred].
  pose proof (wsub_S f c1 d (level + 1) Hal) as Ew.
  replace (c1 + nlen c1 d (level + 1) + sumw f (level + 1 + 1) (g_dau G d)) with (c1 + wsub (S f) d (level + 1)) by lia.
  rewrite IHd.
  - f_equal. unfold sumw at 2. cbn [foldr]. fold (sumw (S f) (level + 1) ds). lia.
  - apply aligned_add; [done|apply wsub_aligned].
  - intros d' Hd'. apply Hd. by right.
Qed.

Lemma cached_0 p : cached p 0 = true.
Proof. unfold NavTableModel.cached. replace (limit <? 0) with false by (symmetry; apply N.ltb_ge; lia). by rewrite andb_false_r. Qed.

Definition total (f : nat) (world : N) : N := 1 + nlen 1 world 0 + sumw (pred f) 1 (g_dau G world).
Lemma table_size_spec f world : (rank world < f)%nat → table_size G r limit f world = Some (4 * total f world).
Proof.
  intros H. unfold table_size. change 4 with (4 * 1) at 1.
  rewrite count_visit; [|done|left; apply cached_0]. done.
Qed.

(** * Filling pass *)
Fixpoint enc (t : gmap N (word T)) (f : nat) (p level m c : N) (s : list N) : Prop :=
  match f with
  | O => False
  | S f' =>
      t !! c = Some (WN m) ∧ t !! (c + 1) = Some (WN p) ∧
      t !! (c + 2) = Some (WN (hdr level (if cached p level then hasm_of (path_matrix s) else 0) (nd_of p))) ∧
      (cached p level = true → ∀ k, k < 12 * r →
         t !! (c + dind_len (nd_of p) + padded (c + dind_len (nd_of p)) + k) = Some (WM (path_matrix s) k)) ∧
      ∀ k d, g_dau G p !! k = Some d →
        let st := c + nlen c p level + sumw f' (level + 1) (take k (g_dau G p)) in
        t !! (c + 3 + N.of_nat k) = Some (WN st) ∧ enc t f' d (level + 1) c st (s ++ [d])
  end.

Lemma few_nd p : few_daughters G → nd_of p = N.of_nat (length (g_dau G p)).
Proof. intros H. unfold NavTableModel.nd_of. specialize (H p). apply N.mod_small. lia. Qed.
Context (Hfew : few_daughters G).

Lemma enc_ext t t' f : ∀ p level m c s, (cached p level = true ∨ c mod r = 0) →
  (∀ a, c ≤ a < c + nlen c p level + sumw (pred f) (level + 1) (g_dau G p) → t' !! a = t !! a) →
  enc t f p level m c s → enc t' f p level m c s.
Proof.
  induction f as [|f IH]; intros p level m c s Hal Hag; [done|]. cbn [enc pred] in *.
  intros (H0 & H1 & H2 & H3 & H4).
  pose proof (dind_len_ge (nd_of p)) as Hge.
  assert (dind_len (nd_of p) ≤ nlen c p level) as Hnl by (unfold nlen; lia).
  split_and!.
  - rewrite Hag; [done|lia].
  - rewrite Hag; [done|lia].
  - rewrite Hag; [done|lia].
  - intros Hc k Hk. rewrite Hag; [by apply H3|]. unfold nlen. rewrite Hc. lia.
  - intros k d Hk. destruct (H4 k d Hk) as [H5 H6].
    pose proof (lookup_lt_Some _ _ _ Hk) as Hlt.
    split.
    + rewrite Hag; [done|]. rewrite (few_nd p Hfew) in Hge, Hnl. lia.
    + pose proof (nlen_end_aligned c p level Hal) as Hal1.
      assert ((c + nlen c p level + sumw f (level + 1) (take k (g_dau G p))) mod r = 0) as Hal2
        by (apply aligned_add; [done|apply sumw_aligned]).
      eapply IH; [by right| |exact H6]. intros a Ha. apply Hag.
      pose proof (sumw_take_le f (level + 1) _ _ _ Hk) as Hle.
      destruct f as [|f]; [done|]. cbn [pred] in Ha.
      rewrite (wsub_S f _ d (level + 1) Hal2) in Hle. lia.
Qed.

Lemma store_ok n m a (w : word T) : a < n → store n m a w = Some (<[a:=w]> m).
Proof. intros. unfold store. destruct (N.ltb_spec a n); [done|lia]. Qed.
Lemma stores_ok n (ws : list (word T)) : ∀ m a, a + N.of_nat (length ws) ≤ n →
  ∃ m', stores n m a ws = Some m' ∧
    (∀ k w, ws !! k = Some w → m' !! (a + N.of_nat k) = Some w) ∧
    (∀ b, (b < a ∨ a + N.of_nat (length ws) ≤ b) → m' !! b = m !! b).
Proof.
  induction ws as [|w ws IH]; intros m a Ha; cbn [stores].
  { exists m. split_and!; [done| |done]. intros k w Hk. done. }
  cbn [length] in Ha. rewrite store_ok by lia. cbn [mbind option_bind].
  destruct (IH (<[a:=w]> m) (a + 1)) as (m' & -> & H1 & H2); [lia|].
  exists m'. split_and!; [done|..].
  - intros [|k] w' Hk.
    + cbn in Hk. injection Hk as <-. rewrite N.add_0_r. rewrite H2 by lia. by rewrite lookup_insert.
    + cbn in Hk. apply H1 in Hk. rewrite <-Hk. f_equal. lia.
  - intros b Hb. cbn [length] in Hb. rewrite H2 by lia. apply lookup_insert_ne. lia.
Qed.
Lemma mat_words_length (t : T) : length (mat_words r t) = N.to_nat (12 * r).
Proof. unfold mat_words. by rewrite map_length, seq_length. Qed.
Lemma mat_words_lookup (t : T) k : (k < N.to_nat (12 * r))%nat → mat_words r t !! k = Some (WM t (N.of_nat k)).
Proof. intros. unfold mat_words. rewrite list_lookup_fmap. by rewrite lookup_seq_lt by lia. Qed.

(** One node. *)
Lemma apply_fill_spec n m c s p level mother dind :
  N.of_nat (length s) = level → cached p level = true ∨ c mod r = 0 →
  0 < c → c + nlen c p level ≤ n → (0 < mother → mother + 3 + dind < c) →
  ∃ m', apply_fill G TO r limit n (VSt m c) (s ++ [p]) level mother dind = Some (VSt m' (c + nlen c p level), c) ∧
    m' !! c = Some (WN mother) ∧ m' !! (c + 1) = Some (WN p) ∧
    m' !! (c + 2) = Some (WN (hdr level (if cached p level then hasm_of (path_matrix (s ++ [p])) else 0) (nd_of p))) ∧
    (cached p level = true → ∀ k, k < 12 * r →
         m' !! (c + dind_len (nd_of p) + padded (c + dind_len (nd_of p)) + k) = Some (WM (path_matrix (s ++ [p])) k)) ∧
    (0 < mother → m' !! (mother + 3 + dind) = Some (WN c)) ∧
    (∀ a, (a < c ∨ c + nlen c p level ≤ a) → (0 < mother → a ≠ mother + 3 + dind) → m' !! a = m !! a).
Proof.
  intros Hs Hal Hc Hn Hm. unfold apply_fill. rewrite last_snoc. cbn [mbind option_bind tab cur].
  pose proof (dind_len_ge (nd_of p)) as Hge.
  assert (dind_len (nd_of p) ≤ nlen c p level) as Hnl by (unfold nlen; lia).
  rewrite store_ok by lia. cbn [mbind option_bind].
  set (m1 := <[c:=_]> m).
  assert (∃ m2, (if 0 <? mother then store n m1 (mother + 3 + dind) (WN c) else Some m1) = Some m2 ∧
    (0 < mother → m2 !! (mother + 3 + dind) = Some (WN c)) ∧
    (∀ a, (0 < mother → a ≠ mother + 3 + dind) → m2 !! a = m1 !! a)) as (m2 & -> & Hm2 & Hm2').
  { destruct (N.ltb_spec 0 mother) as [Hlt|Hlt].
    - rewrite store_ok by lia. eexists. split_and!; [done| |].
      + intros _. by rewrite lookup_insert.
      + intros a Ha. rewrite lookup_insert_ne; [done|]. specialize (Ha Hlt). lia.
    - exists m1. split_and!; [done|lia|done]. }
  cbn [mbind option_bind].
  assert ((s ++ [p]) !! N.to_nat level = Some p) as ->.
  { rewrite <-Hs, Nat2N.id. rewrite lookup_app_r by lia. by rewrite Nat.sub_diag. }
  cbn [mbind option_bind]. rewrite store_ok by lia. cbn [mbind option_bind].
  rewrite store_ok by lia. cbn [mbind option_bind].
  set (m4 := <[c + 2:=_]> _).
  destruct (stores_ok n (replicate (N.to_nat (nd_of p)) (WN 0)) m4 (c + 3)) as (m5 & -> & _ & H5).
  { rewrite replicate_length. lia. }
  rewrite replicate_length in H5. cbn [mbind option_bind].
  assert (∀ a, a < c → m5 !! a = m2 !! a) as H5lt.
  { intros a Ha. rewrite H5 by lia. unfold m4. rewrite lookup_insert_ne by lia. by rewrite lookup_insert_ne by lia. }
  assert (∀ a, c + 3 + nd_of p ≤ a → m5 !! a = m2 !! a) as H5gt.
  { intros a Ha. rewrite H5 by lia. unfold m4. rewrite lookup_insert_ne by lia. by rewrite lookup_insert_ne by lia. }
  assert (m5 !! c = Some (WN mother)) as E0.
  { rewrite H5 by lia. unfold m4. rewrite !lookup_insert_ne by lia. rewrite Hm2' by lia. unfold m1. by rewrite lookup_insert. }
  assert (m5 !! (c + 1) = Some (WN p)) as E1.
  { rewrite H5 by lia. unfold m4. rewrite lookup_insert_ne by lia. by rewrite lookup_insert. }
  assert (m5 !! (c + 2) = Some (WN (hdr level 0 (nd_of p)))) as E2.
  { rewrite H5 by lia. unfold m4. by rewrite lookup_insert. }
  clearbody m4. clear H5.
  unfold nlen in *. destruct (cached p level) eqn:Ec; cbn [negb].
  - rewrite store_ok by lia. cbn [mbind option_bind].
    set (m6 := <[c + 2:=_]> m5).
    destruct (stores_ok n (mat_words r (path_matrix (s ++ [p]))) m6
      (c + dind_len (nd_of p) + padded (c + dind_len (nd_of p)))) as (m7 & -> & H7 & H7').
    { rewrite mat_words_length. lia. }
    rewrite mat_words_length in H7'. cbn [mbind option_bind].
    replace (12 * (4 * r) / 4) with (12 * r) by (replace (12 * (4 * r)) with (12 * r * 4) by lia; by rewrite N.div_mul by lia).
    eexists. split; [f_equal; f_equal; f_equal; lia|]. split_and!.
    + rewrite H7' by lia. unfold m6. by rewrite lookup_insert_ne by lia.
    + rewrite H7' by lia. unfold m6. by rewrite lookup_insert_ne by lia.
    + rewrite H7' by lia. unfold m6. by rewrite lookup_insert.
    + intros _ k Hk. pose proof (H7 (N.to_nat k)) as H. rewrite N2Nat.id in H. apply H.
      rewrite mat_words_lookup by lia. by rewrite N2Nat.id.
    + intros Hlt. specialize (Hm Hlt). rewrite H7' by lia. unfold m6. rewrite lookup_insert_ne by lia.
      rewrite H5lt by lia. by apply Hm2.
    + intros a Ha Hne. rewrite H7' by lia. unfold m6. rewrite lookup_insert_ne by lia.
      destruct Ha as [Ha|Ha]; [rewrite H5lt by done|rewrite H5gt by lia]; rewrite Hm2' by done; unfold m1;
        by rewrite lookup_insert_ne by lia.
  - rewrite !N.add_0_r. eexists. split; [done|]. split_and!; [done|done|done|done|..].
    + intros Hlt. specialize (Hm Hlt). rewrite H5lt by lia. by apply Hm2.
    + intros a Ha Hne.
      destruct Ha as [Ha|Ha]; [rewrite H5lt by done|rewrite H5gt by lia]; rewrite Hm2' by done; unfold m1;
        by rewrite lookup_insert_ne by lia.
Qed.

Lemma fill_visit n f : ∀ p m c s level mother dind,
  (rank p < f)%nat → N.of_nat (length s) = level → cached p level = true ∨ c mod r = 0 →
  0 < c → c + nlen c p level + sumw (pred f) (level + 1) (g_dau G p) ≤ n → (0 < mother → mother + 3 + dind < c) →
  ∃ m', visit G (apply_fill G TO r limit n) f p (VSt m c) s level mother dind
      = Some (VSt m' (c + nlen c p level + sumw (pred f) (level + 1) (g_dau G p))) ∧
    enc m' f p level mother c (s ++ [p]) ∧
    (0 < mother → m' !! (mother + 3 + dind) = Some (WN c)) ∧
    (∀ a, (a < c ∨ c + nlen c p level + sumw (pred f) (level + 1) (g_dau G p) ≤ a) →
       (0 < mother → a ≠ mother + 3 + dind) → m' !! a = m !! a).
Proof.
  induction f as [|f IH]; intros p m c s level mother dind Hf Hs Hal Hc Hn Hm; [lia|].
  cbn [pred] in *. cbn [visit].
  destruct (apply_fill_spec n m c s p level mother dind) as (m1 & -> & E0 & E1 & E2 & E3 & E4 & E5);
    [done|done|done|lia|done|].
  cbn [mbind option_bind].
  pose proof (nlen_end_aligned c p level Hal) as Hal1.
  pose proof (dind_len_ge (nd_of p)) as Hge. rewrite (few_nd p Hfew) in Hge.
  assert (dind_len (nd_of p) ≤ nlen c p level) as Hnl by (unfold nlen; lia).
  rewrite (few_nd p Hfew) in Hnl.
  set (b := c + nlen c p level) in *. assert (b = c + nlen c p level) as Hb by done.
  (* the loop over the daughters, from the [j]-th on *)
  assert (∀ ds j m2, g_dau G p = take j (g_dau G p) ++ ds → length (take j (g_dau G p)) = j →
    let b0 := b + sumw f (level + 1) (take j (g_dau G p)) in
    ∃ m3, loop (λ d i st, visit G (apply_fill G TO r limit n) f d st (s ++ [p]) (level + 1) c i) ds (N.of_nat j) (VSt m2 b0)
        = Some (VSt m3 (b + sumw f (level + 1) (g_dau G p))) ∧
      (∀ k d, (j ≤ k)%nat → g_dau G p !! k = Some d →
         let st := b + sumw f (level + 1) (take k (g_dau G p)) in
         m3 !! (c + 3 + N.of_nat k) = Some (WN st) ∧ enc m3 f d (level + 1) c st ((s ++ [p]) ++ [d])) ∧
      (∀ a, (a < b0 ∨ b + sumw f (level + 1) (g_dau G p) ≤ a) →
         (a < c + 3 + N.of_nat j ∨ c + 3 + N.of_nat (length (g_dau G p)) ≤ a) → m3 !! a = m2 !! a)) as Hloop.
  { intros ds. induction ds as [|d ds IHd]; intros j m2 Eds Hj b0.
    - cbn [loop]. rewrite app_nil_r in Eds. exists m2. split_and!.
      + unfold b0. by rewrite <-Eds.
      + intros k d Hk Hd. apply lookup_lt_Some in Hd. rewrite Eds, Hj in Hd. lia.
      + done.
    - cbn [loop].
      assert (g_dau G p !! j = Some d) as Hd.
      { rewrite Eds. rewrite lookup_app_r by lia. rewrite Hj, Nat.sub_diag. done. }
      assert (b0 = b + sumw f (level + 1) (take j (g_dau G p))) as Hb0 by done.
      assert (b0 mod r = 0) as Hal2 by (apply aligned_add; [done|apply sumw_aligned]).
      pose proof (sumw_take_le f (level + 1) _ _ _ Hd) as Hle.
      assert (take (S j) (g_dau G p) = take j (g_dau G p) ++ [d]) as Etk by (by apply take_S_r).
      assert (sumw f (level + 1) (take (S j) (g_dau G p)) = sumw f (level + 1) (take j (g_dau G p)) + wsub f d (level + 1)) as Esum.
      { rewrite Etk, sumw_app. cbn. lia. }
      pose proof (lookup_lt_Some _ _ _ Hd) as Hlt.
      assert (d ∈ g_dau G p) as Hin by (by eapply elem_of_list_lookup_2).
      destruct f as [|f']; [pose proof (rank_dau p d _ Hin Hf); lia|].
      assert (wsub (S f') d (level + 1) = nlen b0 d (level + 1) + sumw f' (level + 1 + 1) (g_dau G d)) as Ew by (by apply wsub_S).
      destruct (IH d m2 b0 (s ++ [p]) (level + 1) c (N.of_nat j)) as (m2' & -> & Henc & Hsl & Hfr).
      { by eapply rank_dau. }
      { rewrite app_length. cbn. lia. }
      { by right. }
      { lia. }
      { cbn [pred]. lia. }
      { lia. }
      cbn [mbind option_bind]. cbn [pred] in *.
      replace (b0 + nlen b0 d (level + 1) + sumw f' (level + 1 + 1) (g_dau G d)) with
        (b + sumw (S f') (level + 1) (take (S j) (g_dau G p))) in * by lia.
      replace (N.of_nat j + 1) with (N.of_nat (S j)) by lia.
      destruct (IHd (S j) m2') as (m3 & -> & H1 & H2).
      { rewrite Etk, <-app_assoc. done. }
      { rewrite take_length. lia. }
      exists m3. split; [done|]. split.
      + intros k d' Hk Hd'. destruct (decide (k = j)) as [->|Hne]; [|apply H1; [lia|done]].
        assert (d' = d) as -> by congruence. cbv zeta. split.
        * rewrite H2; [|lia|lia]. apply Hsl. lia.
        * eapply enc_ext; [by right| |exact Henc]. cbn [pred]. intros a Ha. clear -Ha H2 Esum Ew Hb Hb0 Hge Hnl. fold b0 in Ha. apply H2; lia.
      + intros a Ha Ha'. rewrite H2; [|lia|lia]. apply Hfr; lia. }
  destruct (Hloop (g_dau G p) O m1) as (m3 & HL & H1 & H2); [done|done|].
  cbn [take] in HL, H2. change (sumw f (level + 1) []) with 0 in HL, H2. rewrite N.add_0_r in HL, H2.
  change (N.of_nat 0) with 0 in HL. rewrite HL.
  assert (∀ a, (a < c + 3 ∨ c + 3 + N.of_nat (length (g_dau G p)) ≤ a < b) → m3 !! a = m1 !! a) as H3.
  { intros a Ha. apply H2; lia. }
  exists m3. split; [done|]. cbn [enc]. split_and!.
  - rewrite H3 by lia. done.
  - rewrite H3 by lia. done.
  - rewrite H3 by lia. done.
  - intros Hca k Hk. rewrite H3; [by apply E3|]. right. unfold b, nlen. rewrite Hca.
    pose proof (dind_len_ge (nd_of p)). rewrite (few_nd p Hfew) in *. lia.
  - intros k d Hd. apply H1; [lia|done].
  - intros Hlt. rewrite H3 by lia. by apply E4.
  - intros a Ha Hne. rewrite H2; [|lia|lia]. apply E5; [lia|done].
Qed.

Lemma create_table_spec f world : (rank world < f)%nat →
  ∃ m, create_table G TO r limit f world = Some (VSt m (total f world)) ∧
    enc m f world 0 0 1 [world] ∧ m !! 0 = Some (WN 0).
Proof.
  intros Hf. unfold create_table. rewrite table_size_spec by done. cbn [mbind option_bind].
  replace (4 * total f world / 4) with (total f world) by (rewrite N.mul_comm, N.div_mul; lia).
  rewrite store_ok by lia. cbn [mbind option_bind].
  destruct (fill_visit (total f world + 1) f world (<[0:=WN 0]> ∅) 1 [] 0 0 0) as (m & E & Henc & _ & Hfr).
  { done. } { done. } { left. apply cached_0. } { lia. } { unfold total. change (0 + 1) with 1. lia. } { lia. }
  exists m. rewrite E. split_and!; [done|done|]. rewrite Hfr by lia. by rewrite lookup_insert.
Qed.
End Proofs.
