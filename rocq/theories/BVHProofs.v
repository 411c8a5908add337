(** Construction of the bounding volume hierarchy. *)
From stdpp Require Import list option.
From Coq Require Import Reals ZArith NArith Lia.
From Verif Require Import Real3 AABBModel AABBSpec AABBProofs BVHModel BVHSpec.
Local Open Scope nat_scope.

(** Node ids below [a] in the tree. *)
Inductive sub (a : nat) : nat → Prop :=
| sub_refl : sub a a
| sub_l x : sub a x → sub a (2 * x + 1)
| sub_r x : sub a x → sub a (2 * x + 2).
Lemma sub_le a x : sub a x → a ≤ x.
Proof. induction 1; lia. Qed.
Lemma sub_inv a x : sub a x → x = a ∨ ∃ y, (x = 2 * y + 1 ∨ x = 2 * y + 2) ∧ sub a y.
Proof. destruct 1; eauto 6. Qed.
Lemma sub_trans a b c : sub a b → sub b c → sub a c.
Proof. intros H. induction 1; eauto using sub. Qed.
Lemma sub_disjoint a x : sub (2 * a + 1) x → sub (2 * a + 2) x → False.
Proof.
  induction x as [x IH] using lt_wf_ind. intros H1 H2.
  destruct (sub_inv _ _ H1) as [->|(y & Hy & H1')].
  { apply sub_le in H2. lia. }
  destruct (sub_inv _ _ H2) as [->|(z & Hz & H2')].
  { assert (y = a) as -> by lia. apply sub_le in H1'. lia. }
  assert (y = z) as <- by lia. apply (IH y); [lia|done..].
Qed.
Lemma sub_not_self a : ¬ sub (2 * a + 1) a ∧ ¬ sub (2 * a + 2) a.
Proof. split; intros H%sub_le; lia. Qed.

(** Slices. *)
Lemma slice_length {A} f l (xs : list A) : l ≤ length xs → length (slice f l xs) = l - f.
Proof. intros. unfold slice. rewrite take_length, drop_length. lia. Qed.
Lemma slice_lookup {A} f l (xs : list A) i : i < l - f → slice f l xs !! i = xs !! (f + i).
Proof. intros. unfold slice. rewrite lookup_take by lia. by rewrite lookup_drop. Qed.
Lemma slice_app3 {A} f l (xs seg : list A) : f ≤ l → l ≤ length xs → length seg = l - f → slice f l (take f xs ++ seg ++ drop l xs) = seg.
Proof.
  intros Hf Hl Hs. unfold slice. rewrite drop_app_alt by (rewrite take_length; lia). by rewrite take_app_alt by lia.
Qed.
Lemma slice_all {A} (xs : list A) : slice 0 (length xs) xs = xs.
Proof. unfold slice. rewrite Nat.sub_0_r, drop_0. by rewrite take_ge. Qed.
Lemma slice_split {A} f m l (xs : list A) : f ≤ m ≤ l → slice f l xs = slice f m xs ++ slice m l xs.
Proof.
  intros. unfold slice. replace (l - f) with ((m - f) + (l - m)) by lia.
  rewrite <- (take_drop (m - f) (take (m - f + (l - m)) (drop f xs))). rewrite take_take, skipn_firstn_comm, drop_drop. f_equal.
  - f_equal. lia.
  - f_equal; [lia|]. f_equal. lia.
Qed.
Lemma elem_of_slice {A} f l (xs : list A) x : x ∈ slice f l xs ↔ ∃ i, f ≤ i < l ∧ xs !! i = Some x.
Proof.
  unfold slice. rewrite elem_of_take. split.
  - intros (i & H & Hi). rewrite lookup_drop in H. exists (f + i). split; [lia|done].
  - intros (i & Hi & H). exists (i - f). rewrite lookup_drop. split; [|lia]. by replace (f + (i - f)) with i by lia.
Qed.

Lemma union_of_spec boxes seg : seg ≠ [] → (∀ i, i ∈ seg → i < length boxes) →
  ∃ b, union_of boxes seg = Some b ∧ ∀ i, i ∈ seg → ∃ bi, boxes !! i = Some bi ∧ box_le bi b.
Proof.
  destruct seg as [|i r]; [done|]. intros _ H. unfold union_of.
  destruct (lookup_lt_is_Some_2 boxes i) as [b Hb]; [apply H; left|]. rewrite Hb. cbn [mbind option_bind].
  assert (∀ j, j ∈ r → j < length boxes) as Hr by (intros; apply H; by right). clear H.
  assert (∀ r done b, (∀ j, j ∈ r → j < length boxes) → (∀ j, j ∈ done → ∃ bj, boxes !! j = Some bj ∧ box_le bj b) →
    ∃ b', foldl (λ ob j, b' ← ob; c ← boxes !! j; Some (bunion b' c)) (Some b) r = Some b' ∧
      ∀ j, j ∈ done ++ r → ∃ bj, boxes !! j = Some bj ∧ box_le bj b') as K.
  { clear. induction r as [|j r IH]; intros dn b Hr Hd.
    - exists b. split; [done|]. by rewrite app_nil_r.
    - cbn [foldl mbind option_bind]. destruct (lookup_lt_is_Some_2 boxes j) as [c Hc]; [apply Hr; left|]. rewrite Hc. cbn [mbind option_bind].
      destruct (IH (dn ++ [j]) (bunion b c)) as (b' & E & Hb').
      + intros; apply Hr; by right.
      + intros j'. rewrite elem_of_app, elem_of_list_singleton. intros [Hj'| ->].
        * destruct (Hd _ Hj') as (bj & ? & ?). exists bj. split; [done|]. intros q Hq. apply union_l. auto.
        * exists c. split; [done|]. intros q Hq. by apply union_r.
      + exists b'. split; [done|]. intros j'. rewrite cons_middle, app_assoc. apply Hb'. }
  destruct (K r [i] b Hr) as (b' & E & Hb').
  - intros j ->%elem_of_list_singleton. exists b. split; [done|]. by intros q.
  - exists b'. by split.
Qed.

Section Build.
Variable sp : splitter.
Hypothesis Hsp : splits sp.
Variable boxes : list aabb.
Variable d : nat.
Notation nodes := (2 ^ S d - 1).

(** Node [id] exists and has [k] levels below it. *)
Definition room (k id : nat) : Prop := 2 ^ d ≤ (id + 1) * 2 ^ k < 2 ^ S d.
Lemma pow2_pos n : 0 < 2 ^ n.
Proof. induction n; cbn; lia. Qed.
Lemma room_root : room d 0.
Proof. unfold room. pose proof (pow2_pos d). cbn. lia. Qed.
Lemma room_le k id : room k id → k ≤ d.
Proof.
  unfold room. intros [_ H]. destruct (decide (k ≤ d)); [done|]. exfalso.
  assert (2 ^ S d ≤ 2 ^ k) by (apply Nat.pow_le_mono_r; lia). nia.
Qed.
Lemma room_lt k id : room k id → id < nodes.
Proof. unfold room. pose proof (pow2_pos k). nia. Qed.
Lemma room_child k id : room (S k) id → room k (2 * id + 1) ∧ room k (2 * id + 2).
Proof.
  intros H. pose proof (room_le _ _ H) as Hk. unfold room in *. pose proof (pow2_pos k) as Hp.
  assert (2 ^ S d = 2 ^ (d - k) * 2 ^ S k) as E by (rewrite <- Nat.pow_add_r; f_equal; lia).
  assert (2 ^ S k = 2 * 2 ^ k) as E2 by (cbn; lia). rewrite E2 in *.
  split; [split; nia|]. split; [nia|]. rewrite E in *.
  assert (id + 1 < 2 ^ (d - k)) by nia. nia.
Qed.
Lemma room_0 id : room 0 id → nodes ≤ 2 * id + 1.
Proof. unfold room. cbn. lia. Qed.
Lemma room_inner k id : room (S k) id → id < nodes / 2.
Proof.
  intros H. destruct (room_child _ _ H) as [_ H2%room_lt]. assert (id + 1 ≤ nodes / 2); [|lia].
  apply Nat.div_le_lower_bound; lia.
Qed.
Lemma room_0_inner id : room 0 id → nodes / 2 ≤ id.
Proof. intros H%room_0. apply Nat.lt_succ_r, Nat.div_lt_upper_bound; lia. Qed.

(** State after ComputeNodes, before internal nodes are marked. *)
Definition box_ok (s : bst) (id f l : nat) : Prop :=
  ∃ bx, s_nodes s !! id = Some bx ∧ ∀ i, i ∈ slice f l (s_prim s) → ∃ bi, boxes !! i = Some bi ∧ box_le bi bx.
Fixpoint pre_ok (s : bst) (k id f l : nat) : Prop :=
  s_nch s !! id = Some (Z.of_nat (l - f)) ∧ s_off s !! id = Some (Z.of_nat f) ∧ box_ok s id f l ∧
  (l - f ≤ 1 ∨ match k with O => True | S k' => ∃ m, f ≤ m ≤ l ∧ pre_ok s k' (2 * id + 1) f m ∧ pre_ok s k' (2 * id + 2) m l end).
Definition sizes (s : bst) : Prop :=
  length (s_off s) = nodes ∧ length (s_nch s) = nodes ∧ length (s_nodes s) = nodes.
Definition same_node (s s' : bst) (x : nat) : Prop :=
  s_nch s' !! x = s_nch s !! x ∧ s_off s' !! x = s_off s !! x ∧ s_nodes s' !! x = s_nodes s !! x.
Lemma pre_ok_frame s s' k : ∀ id f l, (∀ x, sub id x → same_node s s' x) → (∀ i, f ≤ i < l → s_prim s' !! i = s_prim s !! i) →
  pre_ok s k id f l → pre_ok s' k id f l.
Proof.
  induction k as [|k IH]; intros id f l Hn Hp (H1 & H2 & H3 & H4); destruct (Hn id (sub_refl id)) as (N1 & N2 & N3).
  all: assert (box_ok s' id f l) as HB.
  1,3: destruct H3 as (bx & E & Hbx); exists bx; split; [by rewrite N3|]; intros i (j & Hj & Ej)%elem_of_slice; apply Hbx, elem_of_slice;
       exists j; split; [done|]; by rewrite <- Hp.
  - cbn. split_and!; [by rewrite N1|by rewrite N2|done|tauto].
  - cbn. split_and!; [by rewrite N1|by rewrite N2|done|]. destruct H4 as [H4|(m & Hm & HL & HR)]; [by left|right].
    exists m. split; [done|]. split.
    + apply IH in HL; [done| |]. { intros x Hx. apply Hn. eapply sub_trans; [apply sub_l, sub_refl|done]. } intros; apply Hp; lia.
    + apply IH in HR; [done| |]. { intros x Hx. apply Hn. eapply sub_trans; [apply sub_r, sub_refl|done]. } intros; apply Hp; lia.
Qed.

Lemma compute_spec : ∀ k id f l s fuel, room k id → k + 2 ≤ fuel → f ≤ l → l ≤ length (s_prim s) → sizes s →
  (∀ i, i ∈ s_prim s → i < length boxes) →
  ∃ s', compute_nodes sp boxes nodes fuel id f l s = Some s' ∧ sizes s' ∧
    (∃ seg, s_prim s' = take f (s_prim s) ++ seg ++ drop l (s_prim s) ∧ seg ≡ₚ slice f l (s_prim s)) ∧
    (∀ x, ¬ sub id x → same_node s s' x) ∧ pre_ok s' k id f l.
Proof.
  assert (∀ s f l, f ≤ l → s_prim s = take f (s_prim s) ++ slice f l (s_prim s) ++ drop l (s_prim s)) as Hid.
  { intros s f l Hf. unfold slice. rewrite <- (take_drop f (s_prim s)) at 1. f_equal.
    rewrite <- (take_drop (l - f) (drop f (s_prim s))) at 1. f_equal. rewrite drop_drop. f_equal. lia. }
  induction k as [|k IH]; intros id f l s fuel Hr Hfu Hf Hl (Ho & Hc & Hn) Hi.
  all: destruct fuel as [|fuel]; [lia|]; cbn [compute_nodes]; pose proof (room_lt _ _ Hr) as Hlt; destruct (Nat.leb_spec nodes id); [lia|].
  all: destruct (Nat.eqb_spec f l) as [<-|Hne].
  1,3: eexists; split; [reflexivity|]; split; [unfold sizes; cbn; by rewrite !insert_length|]; split;
    [exists (slice f f (s_prim s)); cbn; split; [by apply Hid|done]|]; split;
    [intros x Hx; assert (id ≠ x) by (intros ->; apply Hx, sub_refl); unfold same_node; cbn; by rewrite !list_lookup_insert_ne|];
    assert (is_Some (s_nodes s !! id)) as [bx Hbx] by (apply lookup_lt_is_Some; lia);
    cbn; rewrite !list_lookup_insert by lia; split_and!; [done..| |left; lia];
    exists bx; split; [done|]; intros i (j & Hj & _)%elem_of_slice; lia.
  all: cbn [s_prim s_off s_nch s_nodes].
  all: destruct (union_of_spec boxes (slice f l (s_prim s))) as (b & Eb & Hb);
    [by intros E%(f_equal length); rewrite slice_length in E by lia; cbn in E; lia
    |intros i (j & _ & Hj)%elem_of_slice; apply Hi; by eapply elem_of_list_lookup_2|].
  all: rewrite Eb; cbn [mbind option_bind].
  all: destruct (Nat.eqb_spec (S f) l) as [<-|Hne1].
  1,3: eexists; split; [reflexivity|]; split; [unfold sizes; cbn; by rewrite !insert_length|]; split;
    [exists (slice f (S f) (s_prim s)); cbn; split; [by apply Hid; lia|done]|]; split;
    [intros x Hx; assert (id ≠ x) by (intros ->; apply Hx, sub_refl); unfold same_node; cbn; by rewrite !list_lookup_insert_ne|];
    cbn; rewrite !list_lookup_insert by lia; split_and!; [done..| |left; lia];
    exists b; cbn; rewrite list_lookup_insert by lia; by split.
  all: destruct (Hsp boxes (slice f l (s_prim s)) b) as [Sp Sl]; destruct (sp boxes (slice f l (s_prim s)) b) as [seg kk]; cbn [fst snd] in Sp, Sl;
    rewrite slice_length in Sl by lia; pose proof (Permutation_length Sp) as Lp; rewrite slice_length in Lp by lia; cbn [s_prim s_off s_nch s_nodes].
  all: set (s3 := Bst _ _ _ _).
  all: assert (length (s_prim s3) = length (s_prim s)) as L3 by (cbn; rewrite !app_length, take_length, drop_length; lia).
  all: assert (sizes s3) as Z3 by (unfold sizes; cbn; by rewrite !insert_length).
  all: assert (slice f l (s_prim s3) = seg) as S3 by (by apply slice_app3).
  all: assert (s_prim s3 ≡ₚ s_prim s) as P3 by (cbn; rewrite Sp; by rewrite <- (Hid s f l Hf)).
  all: assert (∀ x, ¬ sub id x → same_node s s3 x) as F3
    by (intros x Hx; assert (id ≠ x) by (intros ->; apply Hx, sub_refl); unfold same_node; cbn; by rewrite !list_lookup_insert_ne).
  - (* last level: the recursive calls return at once *)
    pose proof (room_0 _ Hr) as H0. assert (∀ i f' l' s', nodes ≤ i → compute_nodes sp boxes nodes fuel i f' l' s' = Some s') as E0.
    { intros. destruct fuel; [lia|]. cbn [compute_nodes]. by destruct (Nat.leb_spec nodes i); [|lia]. }
    rewrite (E0 (2 * id + 1)) by lia. cbn [mbind option_bind]. rewrite E0 by lia.
    exists s3. split; [done|]. split; [done|]. split; [exists seg; split; [done|by rewrite Sp]|]. split; [done|].
    cbn. rewrite !list_lookup_insert by lia. split_and!; [done..| |by right].
    exists b. cbn. rewrite list_lookup_insert by lia. split; [done|]. change (take f (s_prim s) ++ seg ++ drop l (s_prim s)) with (s_prim s3).
    rewrite S3. intros i Hi'. apply Hb. by rewrite <- Sp.
  - destruct (room_child _ _ Hr) as [RL RR]. destruct (sub_not_self id) as [NL NR].
    destruct (IH (2 * id + 1) f (f + kk) s3 fuel) as (s4 & E4 & Z4 & (g4 & P4 & Q4) & F4 & K4); try done; try lia.
    { intros i Hi'. apply Hi. by rewrite <- P3. }
    rewrite E4. cbn [mbind option_bind].
    assert (s_prim s4 ≡ₚ s_prim s) as P4'.
    { rewrite P4, Q4, <- P3. rewrite <- (Hid s3 f (f + kk)) by lia. done. }
    destruct (IH (2 * id + 2) (f + kk) l s4 fuel) as (s5 & E5 & Z5 & (g5 & P5 & Q5) & F5 & K5); try done; try lia.
    { rewrite (Permutation_length P4'). lia. }
    { intros i Hi'. apply Hi. by rewrite <- P4'. }
    exists s5. split; [done|]. split; [done|].
    pose proof (Permutation_length Q4) as L4. rewrite slice_length in L4 by lia.
    pose proof (Permutation_length Q5) as L5. rewrite slice_length in L5 by (rewrite (Permutation_length P4'); lia).
    pose proof (Permutation_length P4') as L4'.
    assert (∀ i, i < f + kk ∨ l ≤ i → s_prim s5 !! i = s_prim s4 !! i) as X5.
    { intros i Hx. rewrite P5. destruct Hx as [Hx|Hx].
      - rewrite lookup_app_l by (rewrite take_length; lia). by rewrite lookup_take by lia.
      - rewrite lookup_app_r by (rewrite take_length; lia). rewrite take_length. rewrite lookup_app_r by lia. rewrite lookup_drop. f_equal. lia. }
    assert (∀ i, i < f ∨ f + kk ≤ i → s_prim s4 !! i = s_prim s3 !! i) as X4.
    { intros i Hx. rewrite P4. destruct Hx as [Hx|Hx].
      - rewrite lookup_app_l by (rewrite take_length; lia). by rewrite lookup_take by lia.
      - rewrite lookup_app_r by (rewrite take_length; lia). rewrite take_length. rewrite lookup_app_r by lia. rewrite lookup_drop. f_equal. lia. }
    assert (∀ i, i < f ∨ l ≤ i → s_prim s3 !! i = s_prim s !! i) as X3.
    { intros i Hx. cbn. destruct Hx as [Hx|Hx].
      - rewrite lookup_app_l by (rewrite take_length; lia). by rewrite lookup_take by lia.
      - rewrite lookup_app_r by (rewrite take_length; lia). rewrite take_length. rewrite lookup_app_r by lia. rewrite lookup_drop. f_equal. lia. }
    assert (s_prim s5 ≡ₚ s_prim s) as P5'.
    { rewrite P5, Q5, <- P4'. rewrite <- (Hid s4 (f + kk) l) by lia. done. }
    pose proof (Permutation_length P5') as L5'.
    assert (slice f l (s_prim s5) ≡ₚ slice f l (s_prim s)) as PS.
    { rewrite (slice_split f (f + kk) l) by lia. transitivity (slice f (f + kk) (s_prim s3) ++ slice (f + kk) l (s_prim s3)).
      - f_equiv.
        + assert (slice f (f + kk) (s_prim s5) = slice f (f + kk) (s_prim s4)) as ->.
          { apply list_eq_same_length with (length (slice f (f + kk) (s_prim s4))); [done|rewrite !slice_length by lia; done|].
            intros i x y Hx'. rewrite slice_length in Hx' by lia. rewrite !slice_lookup by lia. rewrite X5 by lia. intros -> [=]. done. }
          rewrite P4. rewrite slice_app3 by lia. done.
        + rewrite P5. rewrite slice_app3 by lia. rewrite Q5.
          assert (slice (f + kk) l (s_prim s4) = slice (f + kk) l (s_prim s3)) as ->; [|done].
          apply list_eq_same_length with (l - (f + kk)); [rewrite slice_length by lia; done|rewrite slice_length by lia; done|].
          intros i x y Hx'. rewrite !slice_lookup by lia. rewrite X4 by lia. intros -> [=]. done.
      - rewrite <- slice_split by lia. rewrite S3. done. }
    split.
    { exists (slice f l (s_prim s5)). split; [|done]. rewrite (Hid s5 f l) at 1 by lia. f_equal; [|f_equal].
      - apply list_eq. intros i. destruct (decide (i < f)).
        + rewrite !lookup_take by done. rewrite X5, X4, X3 by lia. done.
        + rewrite !lookup_take_ge by lia. done.
      - apply list_eq. intros i. rewrite !lookup_drop. rewrite X5, X4, X3 by lia. done. }
    split.
    { intros x Hx. assert (¬ sub (2 * id + 1) x) as HL by (intros HL; apply Hx; eapply sub_trans; [apply sub_l, sub_refl|done]).
      assert (¬ sub (2 * id + 2) x) as HR by (intros HR; apply Hx; eapply sub_trans; [apply sub_r, sub_refl|done]).
      destruct (F3 x Hx) as (A1 & A2 & A3), (F4 x HL) as (B1 & B2 & B3), (F5 x HR) as (C1 & C2 & C3).
      split_and!; congruence. }
    destruct (F4 id NL) as (B1 & B2 & B3), (F5 id NR) as (C1 & C2 & C3).
    cbn. rewrite C1, B1, C2, B2. unfold s3. cbn [s_nch s_off]. rewrite !list_lookup_insert by lia. split_and!; [done..| |].
    + exists b. rewrite C3, B3. unfold s3. cbn [s_nodes]. rewrite list_lookup_insert by lia. split; [done|].
      intros i Hi'. apply Hb. by rewrite <- PS.
    + right. exists (f + kk). split; [lia|]. split; [|done].
      apply (pre_ok_frame s4 s5); [|intros; apply X5; lia|done].
      intros x Hx. apply F5. intros Hx'. by apply (sub_disjoint id x).
Qed.

(** Marking. *)
Definition marked (c : list Z) (x : nat) (v : Z) : Z :=
  if ((8 <? v) && (v =? default 0 (c !! (2 * x + 1)%nat) + default 0 (c !! (2 * x + 2)%nat)))%Z then (-1)%Z else v.
Lemma mark_spec c : length c = nodes →
  ∃ c', mark nodes c = Some c' ∧ length c' = nodes ∧
    ∀ x v, c !! x = Some v → c' !! x = Some (if (x <? nodes / 2) then marked c x v else v).
Proof.
  intros Hc. unfold mark. assert (∀ j, j ≤ nodes / 2 → ∃ c', foldl mark1 (Some c) (seq 0 j) = Some c' ∧ length c' = nodes ∧
    ∀ x v, c !! x = Some v → c' !! x = Some (if (x <? j) then marked c x v else v)) as K; [|by apply K].
  induction j as [|j IH]; intros Hj.
  - exists c. cbn. split_and!; [done..|]. intros x v Hx. destruct (Nat.ltb_spec x 0); [lia|done].
  - destruct IH as (c1 & E & L & H); [lia|]. rewrite seq_S, foldl_app, E. cbn [foldl plus mark1 mbind option_bind].
    assert (2 * j + 2 < nodes) as Hb.
    { assert (2 * (nodes / 2) ≤ nodes) by (apply Nat.mul_div_le; lia). assert (nodes = 2 * 2 ^ d - 1) by (cbn; lia). lia. }
    destruct (lookup_lt_is_Some_2 c j) as [v Hv]; [lia|]. pose proof (H _ _ Hv) as H1. destruct (Nat.ltb_spec j j); [lia|]. rewrite H1. cbn [mbind option_bind].
    destruct (lookup_lt_is_Some_2 c (2 * j + 1)) as [vl Hvl]; [lia|]. destruct (lookup_lt_is_Some_2 c (2 * j + 2)) as [vr Hvr]; [lia|].
    pose proof (H _ _ Hvl) as HL. pose proof (H _ _ Hvr) as HR.
    destruct (Nat.ltb_spec (2 * j + 1) j); [lia|]. destruct (Nat.ltb_spec (2 * j + 2) j); [lia|].
    assert (∀ c2, length c2 = nodes → c2 !! j = Some (marked c j v) → (∀ x, x ≠ j → c2 !! x = c1 !! x) →
      ∃ c', Some c2 = Some c' ∧ length c' = nodes ∧ ∀ x v, c !! x = Some v → c' !! x = Some (if (x <? S j) then marked c x v else v)) as F.
    { intros c2 L2 Hj2 Ho. exists c2. split_and!; [done..|]. intros x w Hw. destruct (decide (x = j)) as [->|Hx].
      - rewrite Hj2. destruct (Nat.ltb_spec j (S j)); [|lia]. congruence.
      - rewrite Ho by done. rewrite (H _ _ Hw). destruct (Nat.ltb_spec x j), (Nat.ltb_spec x (S j)); try lia; done. }
    destruct (8 <? v)%Z eqn:E8.
    + rewrite HL. cbn [mbind option_bind]. rewrite HR. cbn [mbind option_bind]. destruct (v =? vl + vr)%Z eqn:Es.
      * apply F; [by rewrite insert_length| |]. { rewrite list_lookup_insert by lia. unfold marked. rewrite Hvl, Hvr, E8. cbn [from_option andb]. unfold Datatypes.id. rewrite Es. done. }
        intros x Hx. by rewrite list_lookup_insert_ne.
      * apply F; [done| |done]. unfold marked. rewrite Hvl, Hvr, E8. cbn [from_option andb]. unfold Datatypes.id. rewrite Es. done.
    + apply F; [done| |done]. unfold marked. rewrite E8. done.
Qed.

Definition final (s : bst) (c : list Z) : bvh := Bvh (s_prim s) (s_off s) c (s_nodes s) boxes.
Lemma pre_tree s c : length (s_nch s) = nodes → mark nodes (s_nch s) = Some c →
  ∀ k id f l, room k id → f ≤ l ≤ length (s_prim s) → pre_ok s k id f l → tree_ok (final s c) k id f l.
Proof.
  intros Hl Hm. destruct (mark_spec (s_nch s) Hl) as (c' & E & L & H). rewrite Hm in E. injection E as <-.
  induction k as [|k IH]; intros id f l Hr Hfl (H1 & H2 & H3 & H4); pose proof (H _ _ H1) as Hc.
  - pose proof (room_0_inner _ Hr). destruct (Nat.ltb_spec id (nodes / 2)); [lia|]. apply tree_leaf; [done..|by right].
  - pose proof (room_inner _ _ Hr). destruct (Nat.ltb_spec id (nodes / 2)); [|lia]. unfold marked in Hc.
    destruct (Z.ltb_spec 8 (Z.of_nat (l - f))) as [H8|H8]; cbn [andb] in Hc; [|apply tree_leaf; [done..|left; lia]].
    destruct H4 as [H4|(m & Hmm & HL & HR)]; [lia|].
    assert (s_nch s !! (2 * id + 1) = Some (Z.of_nat (m - f))) as EL by (destruct k; apply HL).
    assert (s_nch s !! (2 * id + 2) = Some (Z.of_nat (l - m))) as ER by (destruct k; apply HR).
    rewrite EL, ER in Hc. cbn [from_option] in Hc. unfold Datatypes.id in Hc. destruct (Z.eqb_spec (Z.of_nat (l - f)) (Z.of_nat (m - f) + Z.of_nat (l - m))); [|lia].
    destruct (room_child _ _ Hr) as [RL RR].
    apply tree_node with m; [done|lia|done|done|apply IH; [done|lia|done]..].
Qed.
Lemma build_ok : ∃ b, bvh_build sp boxes d = Some b ∧ b_aabbs b = boxes ∧ bvh_ok b d.
Proof.
  unfold bvh_build.
  destruct (compute_spec d 0 0 (length boxes) (Bst (seq 0 (length boxes)) (replicate nodes (-1)%Z) (replicate nodes 0%Z) (replicate nodes aabb_default)) (S (S d)))
    as (s & E & Z & (seg & P & Q) & _ & K).
  - apply room_root.
  - lia.
  - lia.
  - cbn. by rewrite seq_length.
  - unfold sizes. cbn [s_off s_nch s_nodes]. by rewrite !replicate_length.
  - cbn. intros i Hi%elem_of_list_In%in_seq. lia.
  - cbn [s_prim s_off s_nch s_nodes] in *. rewrite E. cbn [mbind option_bind]. destruct Z as (Z1 & Z2 & Z3).
    destruct (mark_spec (s_nch s) Z2) as (c & Ec & Lc & Hc). rewrite Ec. cbn [mbind option_bind].
    exists (final s c). split; [done|]. split; [done|].
    assert (s_prim s ≡ₚ seq 0 (length boxes)) as HP.
    { rewrite P, Q. rewrite take_0, drop_ge by (rewrite seq_length; lia). rewrite app_nil_r. cbn [app].
      pose proof (slice_all (seq 0 (length boxes))) as S. rewrite seq_length in S. by rewrite S. }
    split; [done|]. split; [done|]. apply pre_tree; [done..|apply room_root|cbn; lia|].
    cbn. pose proof (Permutation_length HP) as L. rewrite seq_length in L. by rewrite L.
Qed.
End Build.
