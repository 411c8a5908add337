(** Multi-unions are the union of their components. *)
From Coq Require Import Reals Lra Lia.
From stdpp Require Import sets list list_numbers option sorting.
From Verif Require Import Real3 AABBModel AABBSpec AABBProofs VoxelModel VoxelLocate ABBoxModel ABBoxProofs TransModel TransSpec TransProofs BoxModel ExtentModel ExtentSpec ExtentProofs ShapeModel HybridModel HybridSpec HybridProofs HybridQuery
  SortModel SortProofs SearchModel SearchSpec SearchProofs SafetyModel BoolModel BoolSpec BoolProofs MultiUnionModel MultiUnionSpec.
Import stdpp.list.
Local Open Scope nat_scope.

(** ** Rows of neighbours *)
Lemma pairs_elem n i j : (i, j) ∈ pairs n ↔ i < j < n.
Proof.
  unfold pairs. rewrite elem_of_list_bind. split.
  - intros (a & K & Ha). apply elem_of_list_bind in K as (b & K & Hb). apply elem_of_list_singleton in K. injection K as -> ->. apply elem_of_seq in Ha, Hb. lia.
  - intros H. exists i. split; [|apply elem_of_seq; lia]. apply elem_of_list_bind. exists j. split; [by left|apply elem_of_seq; lia].
Qed.
Lemma pairs_nodup n : NoDup (pairs n).
Proof.
  unfold pairs. assert (∀ l, NoDup l → NoDup (i ← l; j ← seq (i + 1) (n - (i + 1)); [(i, j)])) as K; [|apply K, NoDup_seq].
  induction l as [|a l IH]; intros Hl; [constructor|]. apply NoDup_cons in Hl as [Ha Hl]. rewrite bind_cons. apply NoDup_app. split; [|split; [|by apply IH]].
  - assert (∀ k o, (seq o k ≫= λ j, [(a, j)]) = (λ j, (a, j)) <$> seq o k) as ->. { induction k as [|k IHk]; intros o; [done|]. cbn [seq]. rewrite bind_cons, IHk. done. }
    apply NoDup_fmap_2; [intros ? ? [=]; done|apply NoDup_seq].
  - intros [x y] K1 K2. apply elem_of_list_bind in K1 as (j & K1 & _). apply elem_of_list_singleton in K1. injection K1 as -> ->.
    apply elem_of_list_bind in K2 as (b & K2 & Hb). apply elem_of_list_bind in K2 as (c & K2 & _). apply elem_of_list_singleton in K2. injection K2 as -> ->. done.
Qed.
Lemma overlap_meet a b : abbox_overlap a b = true ↔ meeting kTolerance a b.
Proof.
  unfold abbox_overlap, meeting, vleast. cbn [vsub vx vy vz].
  assert (∀ x y z : R, rltb (Rmin (Rmin x y) z) (- kTolerance) = false ↔ (- x <= kTolerance ∧ - y <= kTolerance ∧ - z <= kTolerance)%R) as K.
  { intros x y z. rewrite rltb_false. unfold Rmin. repeat destruct (Rle_dec _ _); lra. }
  match goal with |- context [rltb ?x ?y || rltb ?z ?w] => destruct (rltb x y) eqn:E1; [|destruct (rltb z w) eqn:E2] end; cbn [orb].
  - split; [done|]. intros H. assert (false = true) as <-; [|done]. rewrite <- E1. symmetry. apply K. lra.
  - split; [done|]. intros H. assert (false = true) as <-; [|done]. rewrite <- E2. symmetry. apply K. lra.
  - apply K in E1, E2. split; [|done]. intros _. lra.
Qed.
Section Rows.
Variable boxes : list aabb.
Notation n := (length boxes).
Definition linked (i j : nat) : bool := match boxes !! i, boxes !! j with Some a, Some b => abbox_overlap a b | _, _ => false end.
(** What a pair adds to row [i]. *)
Definition contrib (i : nat) (ab : nat * nat) : list nat :=
  if linked ab.1 ab.2 then (if decide (i = ab.1) then [ab.2] else []) ++ (if decide (i = ab.2) then [ab.1] else []) else [].
Definition nb (ps : list (nat * nat)) (i : nat) : list nat := ps ≫= contrib i.
Lemma nb_elem ps i j : (∀ a b, (a, b) ∈ ps → a < b) → j ∈ nb ps i ↔ ((i, j) ∈ ps ∧ linked i j = true) ∨ ((j, i) ∈ ps ∧ linked j i = true).
Proof.
  intros Hp. unfold nb. rewrite elem_of_list_bind. split.
  - intros ([a b] & K & Hab). unfold contrib in K. cbn [fst snd] in K. destruct (linked a b) eqn:E; [|by apply elem_of_nil in K].
    apply elem_of_app in K as [K|K]; destruct (decide _) as [-> |]; try by apply elem_of_nil in K.
    + apply elem_of_list_singleton in K as ->. by left.
    + apply elem_of_list_singleton in K as ->. by right.
  - intros [[K E]|[K E]]; eexists; (split; [|exact K]); unfold contrib; cbn [fst snd]; rewrite E; apply elem_of_app; [left|right]; rewrite decide_True by done; by left.
Qed.
Lemma nb_nodup ps i : (∀ a b, (a, b) ∈ ps → a < b) → NoDup ps → NoDup (nb ps i).
Proof.
  induction ps as [|[a b] ps IH]; intros Hp Hn; [constructor|]. apply NoDup_cons in Hn as [Hi Hn]. unfold nb. rewrite bind_cons. assert (a < b) as Hab by (apply Hp; left).
  apply NoDup_app. split; [|split].
  - unfold contrib. cbn [fst snd]. destruct (linked a b); [|constructor]. repeat destruct (decide _); cbn; try lia; first [apply NoDup_singleton|apply NoDup_nil_2].
  - intros x K1 K2. apply nb_elem in K2; [|intros ? ? ?; apply Hp; by right]. unfold contrib in K1. cbn [fst snd] in K1. destruct (linked a b); [|by apply elem_of_nil in K1].
    apply elem_of_app in K1 as [K1|K1]; destruct (decide _) as [-> |]; try by apply elem_of_nil in K1.
    + apply elem_of_list_singleton in K1 as ->. destruct K2 as [[K2 _]|[K2 _]]; [done|]. assert (b < a) by (apply Hp; by right). lia.
    + apply elem_of_list_singleton in K1 as ->. destruct K2 as [[K2 _]|[K2 _]]; [|done]. assert (b < a) by (apply Hp; by right). lia.
  - apply IH; [|done]. intros ? ? ?. apply Hp. by right.
Qed.
Lemma nb_length i : i < n → length (nb (pairs n) i) < n.
Proof.
  intros Hi. assert (length (nb (pairs n) i) ≤ length (filter (λ x, x ≠ i) (seq 0 n))) as K.
  { apply submseteq_length, NoDup_submseteq; [apply nb_nodup; [|apply pairs_nodup]|].
    - intros a b H. apply pairs_elem in H. lia.
    - intros x H. apply nb_elem in H; [|intros a b K; apply pairs_elem in K; lia]. apply elem_of_list_filter. rewrite elem_of_seq. destruct H as [[H _]|[H _]]; apply pairs_elem in H; lia. }
  assert (length (filter (λ x, x ≠ i) (seq 0 n)) < length (seq 0 n)); [|rewrite seq_length in *; lia].
  apply filter_length_lt with i; [apply elem_of_seq; lia|]. naive_solver.
Qed.
Lemma nb_mono ps qs i : length (nb ps i) ≤ length (nb (ps ++ qs) i).
Proof. unfold nb. rewrite bind_app, app_length. lia. Qed.
Lemma mjoin_cons {A} (r : list A) rows : mjoin (r :: rows) = r ++ mjoin rows. Proof. done. Qed.
Definition total (rows : list (list nat)) : nat := length (mjoin rows).
Lemma total_insert rows i row x : rows !! i = Some row → total (<[i := row ++ [x]]> rows) = S (total rows).
Proof.
  unfold total. revert i. induction rows as [|r rows IH]; intros i H; [done|]. destruct i as [|i].
  - injection H as ->. change (<[0 := row ++ [x]]> (row :: rows)) with ((row ++ [x]) :: rows). rewrite !mjoin_cons, !app_length. cbn. lia.
  - change (<[S i := row ++ [x]]> (r :: rows)) with (r :: <[i := row ++ [x]]> rows). rewrite !mjoin_cons, !app_length, (IH i) by done. lia.
Qed.
(** The state after the pairs [done_]. *)
Definition rows_are (done_ : list (nat * nat)) (st : list (list nat) * nat) : Prop :=
  length st.1 = n ∧ (∀ i, i < n → st.1 !! i = Some (nb done_ i)) ∧ total st.1 = st.2.
Lemma push_ok rows i row x : rows !! i = Some row → length row < n → push_row n rows i x = Some (<[i := row ++ [x]]> rows).
Proof. intros H L. unfold push_row. rewrite H. cbn [mbind option_bind]. destruct (Nat.ltb_spec (length row) n); [done|lia]. Qed.
Lemma nb_snoc ps ab i : nb (ps ++ [ab]) i = nb ps i ++ contrib i ab.
Proof. unfold nb. rewrite bind_app. cbn. by rewrite app_nil_r. Qed.
Lemma link_ok done_ ab rest st : done_ ++ ab :: rest = pairs n → rows_are done_ st → ∃ st', link boxes st ab = Some st' ∧ rows_are (done_ ++ [ab]) st'.
Proof.
  intros E (H1 & H2 & H3). destruct ab as [a b]. assert (a < b < n) as Hab. { apply pairs_elem. rewrite <- E. apply elem_of_app. right. left. }
  assert (∀ i, i < n → length (nb done_ i) + length (contrib i (a, b)) < n) as Hc.
  { intros i Hi. pose proof (nb_length i Hi) as L. pose proof (nb_mono (done_ ++ [(a, b)]) rest i) as Q. rewrite nb_snoc, app_length in Q. rewrite <- app_assoc in Q. cbn in Q. rewrite E in Q. lia. }
  unfold link. cbv zeta. cbn [fst snd]. destruct (lookup_lt_is_Some_2 boxes a) as [A HA]; [lia|]. destruct (lookup_lt_is_Some_2 boxes b) as [B HB]; [lia|]. rewrite HA, HB. cbn [mbind option_bind].
  assert (linked a b = abbox_overlap A B) as EL by (unfold linked; by rewrite HA, HB). destruct (abbox_overlap A B) eqn:O.
  - assert (contrib a (a, b) = [b]) as Ca. { unfold contrib. cbn [fst snd]. rewrite EL, decide_True, decide_False by lia. done. }
    assert (contrib b (a, b) = [a]) as Cb. { unfold contrib. cbn [fst snd]. rewrite EL, decide_False, decide_True by lia. done. }
    pose proof (Hc a ltac:(lia)) as La. pose proof (Hc b ltac:(lia)) as Lb. rewrite Ca in La. rewrite Cb in Lb. cbn in La, Lb.
    rewrite (push_ok st.1 a (nb done_ a) b); [|by apply H2; lia|lia]. cbn [mbind option_bind].
    rewrite (push_ok _ b (nb done_ b) a); [|rewrite list_lookup_insert_ne by lia; by apply H2; lia|lia]. cbn [mbind option_bind].
    eexists. split; [done|]. split; [cbn; by rewrite !insert_length|]. split.
    + intros i Hi. cbn [fst]. rewrite nb_snoc. destruct (decide (i = b)) as [-> |Nb].
      * rewrite list_lookup_insert by (rewrite insert_length; lia). by rewrite Cb.
      * rewrite list_lookup_insert_ne by done. destruct (decide (i = a)) as [-> |Na].
        -- rewrite list_lookup_insert by lia. by rewrite Ca.
        -- rewrite list_lookup_insert_ne by done. unfold contrib. cbn [fst snd]. rewrite EL, !decide_False by done. rewrite app_nil_r. by apply H2.
    + cbn [fst snd]. rewrite (total_insert _ b (nb done_ b)); [|rewrite list_lookup_insert_ne by lia; by apply H2; lia]. rewrite (total_insert _ a (nb done_ a)) by (apply H2; lia). lia.
  - exists st. split; [done|]. split; [done|]. split; [|done]. intros i Hi. rewrite nb_snoc. unfold contrib. cbn [fst snd]. rewrite EL, app_nil_r. by apply H2.
Qed.
Lemma link_all_ok rest : ∀ done_ st, done_ ++ rest = pairs n → rows_are done_ st → ∃ st', link_all boxes rest st = Some st' ∧ rows_are (pairs n) st'.
Proof.
  induction rest as [|ab rest IH]; intros done_ st E H; cbn [link_all].
  - exists st. split; [done|]. rewrite app_nil_r in E. by rewrite <- E.
  - destruct (link_ok done_ ab rest st E H) as (st' & -> & H'). cbn [mbind option_bind]. apply (IH (done_ ++ [ab])); [by rewrite <- app_assoc|done].
Qed.
Lemma place_lookup (rows : list (list nat)) i row : ∀ k, rows !! i = Some row → place_rows rows k !! i = Some (length row, k + length (mjoin (take i rows))).
Proof.
  revert i. induction rows as [|r rows IH]; intros i k H; [done|]. destruct i as [|i]; cbn [place_rows take].
  - injection H as ->. cbn. by rewrite Nat.add_0_r.
  - change ((place_rows rows (k + length r)) !! i = Some (length row, k + length (mjoin (r :: take i rows)))). rewrite (IH i) by done. rewrite mjoin_cons, app_length. by rewrite Nat.add_assoc.
Qed.
Lemma slice_row (rows : list (list nat)) i row : rows !! i = Some row → take (length row) (drop (length (mjoin (take i rows))) (mjoin rows)) = row.
Proof.
  revert i. induction rows as [|r rows IH]; intros i H; [done|]. destruct i as [|i]; cbn [take]; rewrite ?mjoin_cons.
  - injection H as ->. change (length (mjoin (@nil (list nat)))) with 0. by rewrite drop_0, take_app.
  - rewrite app_length, <- drop_drop, drop_app. by apply IH.
Qed.
(** The table of neighbours. *)
Lemma table_ok : ∃ rows newsize table buffer, link_all boxes (pairs n) (replicate n [], 0) = Some (rows, newsize) ∧ compact rows newsize = Some (table, buffer) ∧ length table = n ∧
  ∀ i, i < n → ∃ k o, table !! i = Some (k, o) ∧ o + k ≤ length buffer ∧ take k (drop o buffer) = nb (pairs n) i.
Proof.
  destruct (link_all_ok (pairs n) [] (replicate n [], 0)) as ([rows sz] & E & H1 & H2 & H3); [done| |].
  { split; [cbn [fst]; by rewrite replicate_length|]. split; [intros i Hi; cbn [fst]; by rewrite lookup_replicate_2|]. cbn [fst snd]. unfold total. generalize n. intros m. induction m as [|m IH]; [done|]. by cbn. }
  cbn [fst snd] in *. exists rows, sz. unfold compact. cbv zeta. unfold total in H3. destruct (Nat.leb_spec (length (mjoin rows)) sz); [|lia]. do 2 eexists. split; [done|]. split; [done|]. split.
  - rewrite <- H1. clear. generalize 0. induction rows as [|r rows IH]; intros k; [done|]. cbn. by rewrite IH.
  - intros i Hi. pose proof (H2 i Hi) as Hr. do 2 eexists. split; [by apply place_lookup|]. cbn [Nat.add]. split; [|by apply slice_row].
    rewrite <- (take_drop i rows) at 2. rewrite (drop_S _ _ _ Hr). rewrite mjoin_app, app_length. cbn. rewrite app_length. lia.
Qed.
End Rows.
(** ** Each daughter is found at most once by the search that lowers its limit *)
Section Once.
Variables (kvs : nat) (s : structure) (p : v3).
Definition grown (st st' : R * list (nat * R)) (xs : list nat) : Prop := ∃ l, st'.2 = st.2 ++ l ∧ l.*1 `sublist_of` xs.
Lemma grown_trans a b c' xs ys : grown a b xs → grown b c' ys → grown a c' (xs ++ ys).
Proof. intros (l & E & K) (l' & E' & K'). exists (l ++ l'). rewrite E', E, app_assoc. split; [done|]. rewrite fmap_app. by apply sublist_app. Qed.
Lemma grown_refl a xs : grown a a xs.
Proof. exists []. rewrite app_nil_r. split; [done|]. apply sublist_nil_l. Qed.
Lemma grown_sub a b xs ys : xs `sublist_of` ys → grown a b xs → grown a b ys.
Proof. intros H (l & E & K). exists l. split; [done|]. by etrans. Qed.
Lemma leaf_once hit e node : ∀ k j st st', leaf_lanes2 s p hit e node (seq j k) st = Some st' → grown st st' (drop j (default [] (h_nodes s !! node))).
Proof.
  induction k as [|k IH]; intros j st st' H; cbn [leaf_lanes2 seq] in H; [injection H as <-; apply grown_refl|].
  destruct (hit j).
  - destruct (h_nodes s !! node) as [cl|] eqn:Hc; [|done]. cbn [mbind option_bind] in H. change (default [] (Some cl)) with cl in *. destruct (cl !! j) as [x|] eqn:Ex; [|done]. cbn [mbind option_bind] in H. apply IH in H. rewrite (drop_S _ _ _ Ex).
    change (x :: drop (S j) cl) with ([x] ++ drop (S j) cl). eapply grown_trans; [|exact H]. eexists. split; [done|]. done.
  - apply IH in H. eapply grown_sub; [|exact H]. rewrite <- (Nat.add_1_r j), <- drop_drop. generalize (drop j (default [] (h_nodes s !! node))). intros l. destruct l; [done|]. by apply sublist_cons.
Qed.
Lemma node_once hit g : ∀ k i st st', node_lanes2 kvs s p hit g (seq i k) st = Some st' → grown st st' (mjoin (take k (drop (kvs * g + i) (h_nodes s)))).
Proof.
  induction k as [|k IH]; intros i st st' H; cbn [node_lanes2 seq] in H; [injection H as <-; apply grown_refl|].
  assert (mjoin (take (S k) (drop (kvs * g + i) (h_nodes s))) = default [] (h_nodes s !! (kvs * g + i)) ++ mjoin (take k (drop (kvs * g + S i) (h_nodes s)))) as ->.
  { rewrite Nat.add_succ_r. destruct (h_nodes s !! (kvs * g + i)) as [cl|] eqn:Ec.
    - rewrite (drop_S _ _ _ Ec). done.
    - apply lookup_ge_None in Ec. rewrite !drop_ge by lia. by rewrite !take_nil. }
  destruct (hit i); [|apply IH in H; eapply grown_sub; [|exact H]; by apply sublist_inserts_l].
  cbv zeta in H. destruct (decide _); [|done].
  match type of H with (?x ≫= _) = _ => destruct x as [s1|] eqn:E1; [|done] end. cbn [mbind option_bind] in H. apply leaf_once in E1. rewrite drop_0 in E1.
  apply IH in H. by eapply grown_trans.
Qed.
Lemma groups_once : ∀ k g st st', all_groups2 kvs s p (seq g k) st = Some st' → grown st st' (mjoin (take (kvs * k) (drop (kvs * g) (h_nodes s)))).
Proof.
  induction k as [|k IH]; intros g st st' H; cbn [all_groups2 seq] in H; [injection H as <-; apply grown_refl|].
  cbv zeta in H. match type of H with (?x ≫= _) = _ => destruct x as [s1|] eqn:E1; [|done] end. cbn [mbind option_bind] in H. apply node_once in E1. rewrite Nat.add_0_r in E1. apply IH in H.
  replace (kvs * S k) with (kvs + kvs * k) by lia. rewrite <- take_take_drop, mjoin_app. rewrite drop_drop. eapply grown_trans; [exact E1|]. by replace (kvs * g + kvs) with (kvs * S g) by lia.
Qed.
Lemma cands2_length limit l : safety_candidates2 kvs s p limit = Some l → length l ≤ length (mjoin (h_nodes s)).
Proof.
  unfold safety_candidates2. destruct (all_groups2 _ _ _ _ _) as [st|] eqn:E; [|done]. intros [= <-]. apply groups_once in E as (l & -> & K). cbn [snd app].
  rewrite <- (fmap_length fst). etrans; [by apply sublist_length|]. rewrite Nat.mul_0_r, drop_0. generalize (kvs * ceil_div (vector_size kvs (h_n s)) (kvs + 1)). intros m.
  rewrite <- (take_drop m (h_nodes s)) at 2. rewrite mjoin_app, app_length. lia.
Qed.
End Once.
(** ** Closing *)
Definition built (inf : R) (vols : list placed) : munion := foldl (mu_add inf) (mu_new inf) vols.
Lemma built_snoc inf vols v : built inf (vols ++ [v]) = mu_add inf (built inf vols) v.
Proof. unfold built. by rewrite foldl_app. Qed.
Lemma built_vols inf vols : mu_vols (built inf vols) = vols.
Proof. induction vols as [|v vols IH] using rev_ind; [done|]. rewrite built_snoc. cbn. by rewrite IH. Qed.
Lemma built_within inf vols v : v ∈ vols → within (abbox_of inf v) (Box (mu_min (built inf vols)) (mu_max (built inf vols))).
Proof.
  induction vols as [|w vols IH] using rev_ind; intros H; [by apply elem_of_nil in H|]. rewrite built_snoc. apply elem_of_app in H as [H|H].
  - specialize (IH H). unfold within in *. cbn [mu_add mu_min mu_max bmin bmax vx vy vz] in *. split_and!; first [eapply Rle_trans; [apply Rmin_l|lra]|eapply Rle_trans; [|apply Rmax_l]; lra].
  - apply elem_of_list_singleton in H as ->. unfold within. cbn [mu_add mu_min mu_max bmin bmax vx vy vz]. split_and!; first [apply Rmin_r|apply Rmax_r].
Qed.
(** The extent is no larger than it must be. *)
Lemma built_least inf vols b : (∀ v, v ∈ vols → within (abbox_of inf v) b) → within (Box (V3 inf inf inf) (V3 (- inf) (- inf) (- inf))) b → within (Box (mu_min (built inf vols)) (mu_max (built inf vols))) b.
Proof.
  intros H H0. induction vols as [|w vols IH] using rev_ind; [done|]. rewrite built_snoc. pose proof (H w) as Hw. unfold within in *. cbn [mu_add mu_min mu_max bmin bmax vx vy vz] in *.
  destruct Hw as (? & ? & ? & ? & ? & ?); [apply elem_of_app; right; by left|]. destruct IH as (? & ? & ? & ? & ? & ?); [intros v Hv; apply H, elem_of_app; by left|].
  split_and!; first [by apply Rmin_glb|by apply Rmax_lub].
Qed.
Section Closed.
Variables (inf : R) (kvs : nat) (pick : nat → list nat → list nat → nat) (M : R) (vols : list placed).
Hypothesis Hk : 1 ≤ kvs.
Hypothesis pick_ok : ∀ ci cl set, set ≠ [] → pick ci cl set ∈ set.
Notation boxes := (abbox_of inf <$> vols).
Record closed_of (c : closed) : Prop := CO {
  co_vols : c_vols c = vols;
  co_extent : c_extent c = Box (mu_min (built inf vols)) (mu_max (built inf vols));
  co_nav : ∃ s, c_nav c = Some s ∧ build_structure kvs pick M boxes = Some (Some s);
  co_rows : ∀ i, i < length vols → neighbours c i = Some (nb boxes (pairs (length boxes)) i) }.
Lemma close_ok : vols ≠ [] → ∃ c, mu_close inf kvs pick M (built inf vols) = Some c ∧ closed_of c.
Proof.
  intros Hv. unfold mu_close. cbv zeta. rewrite built_vols. destruct (build_ok kvs M boxes Hk pick pick_ok) as (f & E & _); [by destruct vols|].
  rewrite E. cbn [mbind option_bind]. destruct (table_ok boxes) as (rows & sz & table & buffer & -> & E2 & L & T). cbn [mbind option_bind]. rewrite E2. cbn [mbind option_bind].
  eexists. split; [done|]. split; [done|done|by eexists|]. intros i Hi. unfold neighbours. cbn [c_rows c_buffer]. destruct (T i) as (k & o & Hi' & _ & K); [by rewrite fmap_length|]. rewrite Hi'. cbn [mbind option_bind]. by rewrite K.
Qed.
Variable c : closed.
Hypothesis Hc : closed_of c.
Hypothesis Hcap : (Z.of_nat (length vols) ≤ 20000)%Z.
Hypothesis Hheld : ∀ v, v ∈ vols → held v.
Lemma nonempty : vols ≠ [].
Proof using Hc. destruct (co_nav c Hc) as (s & _ & E). intros K. rewrite K in E. done. Qed.
Lemma box_lookup i v : vols !! i = Some v → boxes !! i = Some (abbox_of inf v).
Proof. intros H. by rewrite list_lookup_fmap, H. Qed.
Lemma box_lookup_inv i b : boxes !! i = Some b → ∃ v, vols !! i = Some v ∧ b = abbox_of inf v.
Proof. rewrite list_lookup_fmap. destruct (vols !! i) as [v|]; [|done]. intros [= <-]. by exists v. Qed.
Lemma near_shrunk b p q e e' : in_box (shrunk e b) q → (vdist p q < e')%R → in_box (shrunk (e - e') b) p.
Proof.
  intros H D. assert (∀ x y, (x * x <= y → 0 <= y → R_sqrt.sqrt y < e' → - e' < x < e')%R) as K.
  { intros x y Hx Hy He. pose proof (sqrt_pos y). pose proof (sqrt_def y Hy) as Q. assert (R_sqrt.sqrt y * R_sqrt.sqrt y < e' * e')%R by (apply Rmult_le_0_lt_compat; lra).
    split; apply Rnot_le_lt; intros L; [assert (e' * e' <= - x * - x)%R by (apply Rmult_le_compat; lra)|assert (e' * e' <= x * x)%R by (apply Rmult_le_compat; lra)]; lra. }
  unfold vdist in D. unfold in_box, shrunk in *. cbn in *. unfold vdot, vsub in D. cbn in D.
  set (a := (vx p - vx q)%R) in *. set (b' := (vy p - vy q)%R) in *. set (c' := (vz p - vz q)%R) in *.
  pose proof (Rle_0_sqr a). pose proof (Rle_0_sqr b'). pose proof (Rle_0_sqr c'). unfold Rsqr in *.
  pose proof (K a (a * a + b' * b' + c' * c')%R ltac:(lra) ltac:(lra) D). pose proof (K b' (a * a + b' * b' + c' * c')%R ltac:(lra) ltac:(lra) D). pose proof (K c' (a * a + b' * b' + c' * c')%R ltac:(lra) ltac:(lra) D).
  unfold a, b', c' in *. lra.
Qed.
Lemma held_shrunk v p : held v → pv_contains v p = true ∨ pv_inside v p ≠ kOutside → in_box (shrunk (1 / 2000) (abbox_of inf v)) p.
Proof.
  intros [Ho H] K. destruct (H _ K) as (q' & Hq & D). replace (1 / 2000)%R with (1 / 1000 - 1 / 2000)%R by lra. refine (near_shrunk (abbox_of inf v) p (inverse_transform (pl_tr v) q') (1 / 1000) (1 / 2000) _ _).
  { unfold abbox_of. apply abbox_in. exact Hq. }
  rewrite <- (inverse_of_transform (pl_tr v) p Ho). by rewrite inverse_dist.
Qed.
Lemma held_box v p : held v → pv_contains v p = true ∨ pv_inside v p ≠ kOutside → in_interior (abbox_of inf v) p.
Proof. intros H K. eapply interior_shrunk; [|by apply held_shrunk]. lra. Qed.
Lemma candidates_ok p : ∃ l, candidates kvs c p = Some l ∧ ∀ i, i ∈ l ↔ ∃ v, vols !! i = Some v ∧ in_interior (abbox_of inf v) p.
Proof using Hk pick_ok Hc Hcap.
  destruct (co_nav c Hc) as (s & E & B). unfold candidates. rewrite E. cbn [mbind option_bind].
  destruct (query_finds kvs M boxes Hk pick pick_ok (λ b, ab_contains b p)) as (s' & l & E1 & E2 & N & F); [|apply contains_empty|apply contains_grows|].
  { intros K. apply nonempty. by apply fmap_nil_inv in K. }
  assert (s' = s) as -> by congruence. unfold containing_candidates. rewrite E2. cbn [mbind option_bind]. exists (map fst l). split.
  - unfold in_array. rewrite decide_True; [done|]. etrans; [|exact Hcap]. apply inj_le. change (length l.*1 ≤ length vols). rewrite <- (seq_length (length vols) 0). apply submseteq_length, NoDup_submseteq; [done|].
    intros x K. apply elem_of_list_fmap in K as ([y b] & -> & K). apply F in K as [K _]. apply elem_of_seq. apply lookup_lt_Some in K. rewrite fmap_length in K. cbn. lia.
  - intros i. split.
    + intros K. apply elem_of_list_fmap in K as ([y b] & -> & K). apply F in K as [K T]. apply box_lookup_inv in K as (v & K & ->). exists v. split; [done|]. apply ab_contains_iff in T. exact T.
    + intros (v & Hv & T). apply elem_of_list_fmap. exists (i, abbox_of inf v). split; [done|]. apply F. split; [by apply box_lookup|]. by apply ab_contains_iff.
Qed.
Lemma contains_loop_ok p l : (∀ i, i ∈ l → is_Some (vols !! i)) → ∃ b, contains_loop c p l false = Some b ∧ (b = true ↔ ∃ i v, i ∈ l ∧ vols !! i = Some v ∧ pv_contains v p = true).
Proof using Hc.
  induction l as [|i l IH]; intros H; cbn [contains_loop].
  - exists false. split; [done|]. split; [done|]. intros (i & v & K & _). by apply elem_of_nil in K.
  - destruct (H i) as [v Hv]; [left|]. rewrite (co_vols c Hc), Hv. cbn [mbind option_bind]. cbv zeta. destruct (pv_contains v p) eqn:E.
    + exists true. split; [done|]. split; [|done]. intros _. exists i, v. split; [left|done].
    + destruct IH as (b & -> & Hb); [intros ? ?; apply H; by right|]. exists b. split; [done|]. rewrite Hb. split.
      * intros (j & w & Hj & K). exists j, w. split; [by right|done].
      * intros (j & w & [-> | Hj]%elem_of_cons & K & K'); [congruence|]. by exists j, w.
Qed.
Theorem contains_ok p : ∃ b, mu_contains kvs c p = Some b ∧ (b = true ↔ some_comp (λ v, pv_contains v p = true) vols).
Proof using Hk pick_ok Hc Hcap Hheld.
  unfold mu_contains. destruct (candidates_ok p) as (l & -> & Hl). cbn [mbind option_bind]. destruct (contains_loop_ok p l) as (b & -> & Hb).
  { intros i K. apply Hl in K as (v & K & _). by exists v. }
  exists b. split; [done|]. rewrite Hb. split.
  - intros (i & v & _ & Hv & K). exists v. split; [by eapply elem_of_list_lookup_2|done].
  - intros (v & Hv & K). pose proof Hv as Hi. apply elem_of_list_lookup in Hi as [i Hi]. exists i, v. split; [|done]. apply Hl. exists v. split; [done|]. apply held_box; [by apply Hheld|by left].
Qed.
Lemma inside_loop_ok p l : (∀ i, i ∈ l → is_Some (vols !! i)) → ∀ r0, r0 ≠ kInside → ∃ r, inside_loop c p l r0 = Some r ∧
  (r = kInside ↔ ∃ i v, i ∈ l ∧ vols !! i = Some v ∧ pv_inside v p = kInside) ∧ (r = kOutside ↔ r0 = kOutside ∧ ∀ i v, i ∈ l → vols !! i = Some v → pv_inside v p = kOutside).
Proof using Hc.
  induction l as [|i l IH]; intros H r0 Hr0; cbn [inside_loop].
  - exists r0. split; [done|]. split; [split; [done|intros (i & v & K & _); by apply elem_of_nil in K]|]. split; [|tauto]. intros E. split; [done|]. intros i v K. by apply elem_of_nil in K.
  - destruct (H i) as [v Hv]; [left|]. rewrite (co_vols c Hc), Hv. cbn [mbind option_bind]. destruct (pv_inside v p) eqn:E.
    + exists kInside. split; [done|]. split; [split; [|done]; intros _; exists i, v; split; [left|done]|]. split; [done|]. intros [_ K]. specialize (K i v ltac:(left) Hv). congruence.
    + destruct (IH ltac:(intros ? ?; apply H; by right) kSurface) as (r & -> & H1 & H2); [done|]. exists r. split; [done|]. split.
      * rewrite H1. split; [intros (j & w & Hj & K); exists j, w; split; [by right|done]|]. intros (j & w & [-> | Hj]%elem_of_cons & K & K'); [congruence|]. by exists j, w.
      * rewrite H2. split; [intros [? _]; done|]. intros [_ K]. specialize (K i v ltac:(left) Hv). congruence.
    + destruct (IH ltac:(intros ? ?; apply H; by right) r0 Hr0) as (r & -> & H1 & H2). exists r. split; [done|]. split.
      * rewrite H1. split; [intros (j & w & Hj & K); exists j, w; split; [by right|done]|]. intros (j & w & [-> | Hj]%elem_of_cons & K & K'); [congruence|]. by exists j, w.
      * rewrite H2. split; intros [-> K]; (split; [done|]); [intros j w [-> | Hj]%elem_of_cons Hw; [congruence|by eapply K]|intros j w Hj Hw; eapply K; [by right|done]].
Qed.
Lemma cand_all p (l : list nat) (P : placed → Prop) : (∀ i, i ∈ l ↔ ∃ v, vols !! i = Some v ∧ in_interior (abbox_of inf v) p) → (∀ v, P v → pv_inside v p ≠ kOutside) →
  (∃ i v, i ∈ l ∧ vols !! i = Some v ∧ P v) ↔ some_comp P vols.
Proof using Hheld.
  intros Hl HP. split.
  - intros (i & v & _ & Hv & K). exists v. split; [by eapply elem_of_list_lookup_2|done].
  - intros (v & Hv & K). pose proof Hv as Hi. apply elem_of_list_lookup in Hi as [i Hi]. exists i, v. split; [|done]. apply Hl. exists v. split; [done|]. apply held_box; [by apply Hheld|right; by apply HP].
Qed.
Theorem inside_ok p : ∃ r, mu_inside kvs c p = Some r ∧ (r = kInside ↔ some_comp (λ v, pv_inside v p = kInside) vols) ∧ (r = kOutside ↔ ∀ v, v ∈ vols → pv_inside v p = kOutside).
Proof using Hk pick_ok Hc Hcap Hheld.
  unfold mu_inside. destruct (candidates_ok p) as (l & -> & Hl). cbn [mbind option_bind]. destruct (inside_loop_ok p l) with (r0 := kOutside) as (r & -> & H1 & H2).
  { intros i K. apply Hl in K as (v & K & _). by exists v. } { done. }
  exists r. split; [done|]. rewrite H1, H2. split; [apply (cand_all p l (λ v, pv_inside v p = kInside)); [done|congruence]|]. split.
  - intros [_ K] v Hv. destruct (pv_inside v p) eqn:E; [| |done].
    all: destruct (cand_all p l (λ v, pv_inside v p ≠ kOutside) Hl ltac:(done)) as [_ Q]; destruct Q as (i & w & Hi & Hw & N); [exists v; split; [done|congruence]|]; exfalso; apply N; by eapply K.
  - intros K. split; [done|]. intros i v _ Hv. apply K. by eapply elem_of_list_lookup_2.
Qed.
Lemma component_loop_ok p l : (∀ i, i ∈ l → is_Some (vols !! i)) → ∃ r, component_loop c p l = Some r ∧
  match r with Some i => ∃ v, vols !! i = Some v ∧ pv_inside v p ≠ kOutside | None => ∀ i v, i ∈ l → vols !! i = Some v → pv_inside v p = kOutside end.
Proof using Hc.
  induction l as [|i l IH]; intros H; cbn [component_loop].
  - exists None. split; [done|]. intros i v K. by apply elem_of_nil in K.
  - destruct (H i) as [v Hv]; [left|]. rewrite (co_vols c Hc), Hv. cbn [mbind option_bind]. destruct (pv_inside v p) eqn:E.
    1, 2: exists (Some i); split; [done|]; exists v; split; [done|congruence].
    destruct IH as (r & -> & Hr); [intros ? ?; apply H; by right|]. exists r. split; [done|]. destruct r as [j|]; [done|]. intros j w [-> | Hj]%elem_of_cons Hw; [congruence|by eapply Hr].
Qed.
Theorem component_ok p : ∃ r, inside_component kvs c p = Some r ∧
  match r with Some i => ∃ v, vols !! i = Some v ∧ pv_inside v p ≠ kOutside | None => ∀ v, v ∈ vols → pv_inside v p = kOutside end.
Proof using Hk pick_ok Hc Hcap Hheld.
  unfold inside_component. destruct (candidates_ok p) as (l & -> & Hl). cbn [mbind option_bind]. destruct (component_loop_ok p l) as (r & -> & Hr).
  { intros i K. apply Hl in K as (v & K & _). by exists v. }
  exists r. split; [done|]. destruct r as [i|]; [done|]. intros v Hv. destruct (pv_inside v p) eqn:E; [| |done].
  all: destruct (cand_all p l (λ v, pv_inside v p ≠ kOutside) Hl ltac:(done)) as [_ Q]; destruct Q as (i & w & Hi & Hw & N); [exists v; split; [done|congruence]|]; exfalso; apply N; by eapply Hr.
Qed.

(** ** Neighbours *)
Lemma meeting_sym e a b : meeting e a b ↔ meeting e b a.
Proof. unfold meeting. tauto. Qed.
Lemma linked_adjacent i j : i ≠ j → linked boxes i j = true ↔ adjacent kTolerance boxes i j.
Proof.
  intros N. unfold linked, adjacent. split.
  - destruct (boxes !! i) as [a|]; [|done]. destruct (boxes !! j) as [b|]; [|done]. rewrite overlap_meet. intros H. split; [done|]. by exists a, b.
  - intros (_ & a & b & -> & -> & H). by apply overlap_meet.
Qed.
Lemma adjacent_sym e i j : adjacent e boxes i j ↔ adjacent e boxes j i.
Proof. unfold adjacent. split; intros (N & a & b & A & B & H); (split; [done|]); exists b, a; (split; [done|]); (split; [done|]); by apply meeting_sym. Qed.
Lemma neighbours_ok i : i < length vols → ∃ ns, neighbours c i = Some ns ∧ NoDup ns ∧ ∀ j, j ∈ ns ↔ adjacent kTolerance boxes i j.
Proof using Hk pick_ok Hc Hcap Hheld.
  intros Hi. rewrite (co_rows c Hc i Hi). eexists. split; [done|]. split; [apply nb_nodup; [|apply pairs_nodup]; intros a b K; apply pairs_elem in K; lia|].
  intros j. rewrite nb_elem by (intros a b K; apply pairs_elem in K; lia). rewrite !pairs_elem. split.
  - intros [[K L]|[K L]]; [|apply adjacent_sym]; apply linked_adjacent; [lia|done|lia|done].
  - intros K. pose proof K as (N & a & b & A & B & _). apply lookup_lt_Some in A, B. destruct (decide (i < j)) as [L|L].
    + left. split; [lia|]. by apply linked_adjacent.
    + right. split; [lia|]. apply linked_adjacent; [lia|]. by apply adjacent_sym.
Qed.
(** ** Safeties *)
Lemma safety_in_loop_ok p hits : StronglySorted (SortProofs.le hits_before) hits → (∀ i t, (i, t) ∈ hits → is_Some (vols !! i)) → ∀ st, (0 < st.1)%R →
  ∃ r, safety_in_loop c p hits st = Some r ∧ (0 < r.1 <= st.1)%R ∧ (r = st ∨ ∃ i v, vols !! i = Some v ∧ r = (pv_safety_in v p, Some i)) ∧
    ∀ i t v, (i, t) ∈ hits → vols !! i = Some v → (0 < pv_safety_in v p → r.1 <= pv_safety_in v p ∨ r.1 * r.1 < t)%R.
Proof using Hk pick_ok Hc Hcap Hheld.
  induction hits as [|[i t] hits IH]; intros S I st Hst; cbn [safety_in_loop].
  - exists st. split; [done|]. split; [lra|]. split; [by left|]. intros i t v K. by apply elem_of_nil in K.
  - unfold rgtb at 1. destruct (rltb_spec (st.1 * st.1) t) as [L|L].
    + exists st. split; [done|]. split; [lra|]. split; [by left|]. intros j u v K _ _. right. by eapply (sorted_tail i t hits (st.1 * st.1)%R S L).
    + destruct (I i t) as [v Hv]; [left|]. rewrite (co_vols c Hc), Hv. cbn [mbind option_bind]. cbv zeta.
      set (st' := if rgtb (pv_safety_in v p) 0 && rltb (pv_safety_in v p) st.1 then (pv_safety_in v p, Some i) else st).
      assert (0 < st'.1 <= st.1 ∧ (0 < pv_safety_in v p → st'.1 <= pv_safety_in v p))%R as [H1 H2].
      { unfold st', rgtb. destruct (rltb_spec 0 (pv_safety_in v p)), (rltb_spec (pv_safety_in v p) st.1); cbn [andb fst]; lra. }
      destruct (IH ltac:(by apply StronglySorted_inv in S as [? _]) ltac:(intros j u K; apply (I j u); by right) st' ltac:(lra)) as (r & E & R1 & R2 & R3).
      exists r. split; [done|]. split; [lra|]. split.
      * destruct R2 as [-> |?]; [|by right]. unfold st'. destruct (_ && _); [right; by exists i, v|by left].
      * intros j u w [K|K]%elem_of_cons Hw P; [injection K as -> ->; left; assert (w = v) as -> by congruence; specialize (H2 P); lra|by apply (R3 j u w)].
Qed.
Lemma least_index (f : nat → R) n : 1 ≤ n → ∃ x, x < n ∧ ∀ y, y < n → (f x <= f y)%R.
Proof.
  induction n as [|n IH]; [lia|]. intros _. destruct (decide (n = 0)) as [-> | N].
  - exists 0. split; [lia|]. intros y Hy. assert (y = 0) as -> by lia. lra.
  - destruct IH as (x & Hx & K); [lia|]. destruct (Rle_or_lt (f x) (f n)) as [L|L].
    + exists x. split; [lia|]. intros y Hy. destruct (decide (y = n)) as [-> |]; [done|apply K; lia].
    + exists n. split; [lia|]. intros y Hy. destruct (decide (y = n)) as [-> |]; [lra|]. specialize (K y ltac:(lia)). lra.
Qed.
Theorem safety_comp_ok p (obj : nat → v3) : (1 <= inf)%R → (0 < M + vx p)%R → (inf <= (M + vx p) * (M + vx p))%R →
  (∀ i v, vols !! i = Some v → in_interior (abbox_of inf v) (obj i) ∧ (0 < pv_safety_in v p <= vdist p (obj i))%R ∧ (vdist p (obj i) * vdist p (obj i) < inf)%R) →
  ∃ k v, safety_in_comp inf kvs c p = Some (pv_safety_in v p, Some k) ∧ vols !! k = Some v ∧ ∀ i, i < length vols → (pv_safety_in v p <= vdist p (obj i))%R.
Proof using Hk pick_ok Hc Hcap Hheld.
  intros Hinf HM Hfar Ho. assert (1 ≤ length boxes) as Hn. { rewrite fmap_length. pose proof nonempty. destruct vols; [done|cbn; lia]. }
  destruct (least_index (λ i, vdist p (obj i)) (length vols)) as (x & Hx & Hmin); [by rewrite <- (fmap_length (abbox_of inf))|].
  destruct (lookup_lt_is_Some_2 vols x Hx) as [vx' Hvx]. destruct (Ho x vx' Hvx) as (Ix & Sx & Lx).
  destruct (co_nav c Hc) as (s & E & B). unfold safety_in_comp. rewrite E. cbn [mbind option_bind].
  destruct (build_ok kvs M boxes Hk pick pick_ok) as (f & B1 & B2); [by destruct boxes|]. rewrite B1 in B. injection B as <-.
  set (s := Structure (length boxes) f (clusters kvs pick (length boxes))) in *.
  assert (0 <= vdist p (obj x))%R as D0 by apply sqrt_pos.
  destruct (lowering_ok kvs M boxes pick s p obj inf (vdist p (obj x) * vdist p (obj x))) as (l & E1 & E2 & E3); try done.
  { intros i b K. apply box_lookup_inv in K as (v & K & ->). by apply Ho. }
  { intros i Hi. rewrite fmap_length in Hi. specialize (Hmin i Hi). apply Rmult_le_compat; lra. }
  rewrite E1. cbn [mbind option_bind]. destruct (sorted_hits_ok 20000 l) as (l' & E4 & S & P); [|lia|].
  { apply cands2_length in E1. cbn [s h_nodes] in E1. destruct (clusters_ok pick pick_ok kvs (length boxes) Hk Hn) as [Q _]. rewrite Q, seq_length, fmap_length in E1. lia. }
  rewrite E4. cbn [mbind option_bind].
  assert (∀ i t, (i, t) ∈ l' → ∃ v, vols !! i = Some v ∧ t = ab_safety_sqr (abbox_of inf v) p) as HL.
  { intros i t K. rewrite P in K. apply E2 in K as (b & K & ->). apply box_lookup_inv in K as (v & K & ->). by exists v. }
  destruct (safety_in_loop_ok p l' S) with (st := (inf, @None nat)) as (r & E5 & R1 & R2 & R3); [intros i t K; apply HL in K as (v & K & _); by exists v|cbn; lra|]. cbn [fst] in R1.
  assert (x ∈ l.*1) as Kx by (apply E3; [by rewrite fmap_length|done]). apply elem_of_list_fmap in Kx as ([x' t] & Ex & Kx). cbn in Ex. subst x'. rewrite <- P in Kx. destruct (HL x t Kx) as (v & Hv & ->). assert (v = vx') as -> by congruence.
  assert (r.1 <= vdist p (obj x))%R as Hr.
  { destruct (R3 x _ vx' Kx Hvx ltac:(lra)) as [?|K]; [lra|]. pose proof (ab_safety_lower (abbox_of inf vx') p (obj x)) as Q. specialize (Q ltac:(unfold in_box, in_interior in *; lra)). apply Rnot_lt_le. intros L. assert (vdist p (obj x) * vdist p (obj x) < r.1 * r.1)%R by (apply Rmult_le_0_lt_compat; lra). lra. }
  destruct R2 as [R2|(k & v & Hk' & R2)].
  - exfalso. subst r. cbn [fst] in Hr. assert (vdist p (obj x) * 1 <= vdist p (obj x) * vdist p (obj x))%R by (apply Rmult_le_compat_l; lra). lra.
  - exists k, v. rewrite E5, R2. split; [done|]. split; [done|]. intros i Hi. rewrite R2 in Hr. cbn [fst] in Hr. specialize (Hmin i Hi). lra.
Qed.
Lemma safety_out_loop_ok p ns : (∀ i, i ∈ ns → is_Some (vols !! i)) → ∀ s0, ∃ r, safety_out_loop c p ns s0 = Some r ∧ (r <= s0)%R ∧
  (r = s0 ∨ ∃ i v, i ∈ ns ∧ vols !! i = Some v ∧ r = pv_safety_out v (transform (pl_tr v) p) ∧ (0 < r)%R) ∧
  ∀ i v, i ∈ ns → vols !! i = Some v → (0 < pv_safety_out v (transform (pl_tr v) p) → r <= pv_safety_out v (transform (pl_tr v) p))%R.
Proof using Hk pick_ok Hc Hcap Hheld.
  induction ns as [|i ns IH]; intros I s0; cbn [safety_out_loop].
  - exists s0. split; [done|]. split; [lra|]. split; [by left|]. intros i v K. by apply elem_of_nil in K.
  - destruct (I i) as [v Hv]; [left|]. rewrite (co_vols c Hc), Hv. cbn [mbind option_bind]. cbv zeta. set (sc := pv_safety_out v (transform (pl_tr v) p)).
    set (s1 := if rgtb sc 0 && rltb sc s0 then sc else s0). assert (s1 <= s0 ∧ (0 < sc → s1 <= sc))%R as [H1 H2].
    { unfold s1, rgtb. destruct (rltb_spec 0 sc), (rltb_spec sc s0); cbn [andb]; lra. }
    destruct (IH ltac:(intros j K; apply I; by right) s1) as (r & E & R1 & R2 & R3). exists r. split; [done|]. split; [lra|]. split.
    + destruct R2 as [-> |(j & w & Hj & K)]; [|right; exists j, w; split; [by right|done]]. unfold s1, rgtb. destruct (rltb_spec 0 sc) as [P|P]; [|by left]. destruct (rltb_spec sc s0); [|by left]. right. exists i, v. split; [left|]. split; [done|]. split; [done|cbn [andb]; lra].
    + intros j w [-> | K]%elem_of_cons Hw P; [assert (w = v) as -> by congruence; specialize (H2 P); fold sc; lra|by apply (R3 j w)].
Qed.
(** ** The way in *)
Lemma tiny_along p d t : (Rabs t * kTiny < 1 / 1000)%R → ∀ b, in_box (shrunk (1 / 1000) b) (along p d t) → in_box b (along p (vnonzero d) t).
Proof.
  intros Ht b H. assert (∀ x, nonzero x = x + kTiny ∨ nonzero x = x - kTiny)%R as K. { intros x. unfold nonzero. destruct (rltb x 0); [right; lra|by left]. }
  assert (0 < kTiny)%R as Hk0. { unfold kTiny. apply Rinv_0_lt_compat, pow_lt. lra. }
  assert (- (1 / 1000) < t * kTiny < 1 / 1000)%R as Hb. { unfold Rabs in Ht. destruct (Rcase_abs t); [|assert (0 <= t * kTiny)%R by (apply Rmult_le_pos; lra); lra]. assert (0 <= - t * kTiny)%R by (apply Rmult_le_pos; lra). lra. }
  unfold in_box, shrunk, along, vadd, vsub, vscale, vnonzero in *. cbn in *.
  destruct (K (vx d)) as [-> | ->], (K (vy d)) as [-> | ->], (K (vz d)) as [-> | ->]; rewrite ?Rmult_plus_distr_l, ?Rmult_minus_distr_l; lra.
Qed.
Lemma put_box v p : ortho (pl_tr v) → put (pl_tr v) (in_box (Box (s_extent (pl_shape v)).1 (s_extent (pl_shape v)).2)) p → in_box (shrunk (1 / 1000) (abbox_of inf v)) p.
Proof.
  intros Ho H. unfold abbox_of. rewrite <- (inverse_of_transform (pl_tr v) p Ho). apply abbox_in. exact H.
Qed.
Lemma in_loop_ok p d smax D hits : distances vols p d smax D → StronglySorted (SortProofs.le hits_before) hits → (∀ i t, (i, t) ∈ hits → is_Some (vols !! i)) → ∀ dist,
  ∃ r, in_loop c p d smax hits dist = Some r ∧ (r <= dist)%R ∧ (r = dist ∨ ∃ i v, vols !! i = Some v ∧ pv_to_in v p d smax = Some r) ∧
    ∀ i t v, (i, t) ∈ hits → vols !! i = Some v → (D i < smax → r <= D i ∨ r < t ∨ smax < t)%R.
Proof using Hk pick_ok Hc Hcap Hheld.
  intros HD. induction hits as [|[i t] hits IH]; intros S I dist; cbn [in_loop].
  - exists dist. split; [done|]. split; [lra|]. split; [by left|]. intros i t v K. by apply elem_of_nil in K.
  - unfold rgtb. destruct (rltb_spec (Rmin smax dist) t) as [L|L].
    + exists dist. split; [done|]. split; [lra|]. split; [by left|]. intros j u v K _ _. pose proof (sorted_tail i t hits (Rmin smax dist) S L j u K) as Q. right. unfold Rmin in Q. destruct (Rle_dec smax dist); [by right|by left].
    + destruct (I i t) as [v Hv]; [left|]. rewrite (co_vols c Hc), Hv. cbn [mbind option_bind]. destruct (HD i v Hv) as (dc & E & E1 & E2). rewrite E. cbn [mbind option_bind].
      set (dist' := if rltb dc dist then dc else dist). assert (dist' <= dist ∧ dist' <= dc)%R as [H1 H2] by (unfold dist'; destruct (rltb_spec dc dist); lra).
      destruct (IH ltac:(by apply StronglySorted_inv in S as [? _]) ltac:(intros j u K; apply (I j u); by right) dist') as (r & Er & R1 & R2 & R3).
      exists r. split; [done|]. split; [lra|]. split.
      * destruct R2 as [-> |?]; [|by right]. unfold dist'. destruct (rltb dc dist); [right; by exists i, v|by left].
      * intros j u w [K|K]%elem_of_cons Hw P; [injection K as -> ->; left; rewrite <- (E1 P); lra|by apply (R3 j u w)].
Qed.
Theorem to_in_ok p d smax D : distances vols p d smax D → meets vols p d smax D → (0 <= smax <= inf)%R → (0 <= M)%R → (smax * kTiny < 1 / 1000)%R → unreached M p (vnonzero d) (Rmin smax M) →
  (∀ i, i < length vols → (D i < smax → D i < M)%R) →
  ∃ r, mu_to_in inf kvs M c p d smax = Some r ∧ (∀ i, i < length vols → (D i < smax)%R → ((0 <= D i → r <= D i) ∧ (D i < 0 → r < 0))%R) ∧
    ((r < smax)%R → ∃ i, i < length vols ∧ r = D i).
Proof using Hk pick_ok Hc Hcap Hheld.
  intros HD Hm Hs HM Htiny Hu Hfin. unfold mu_to_in. cbv zeta. pose proof (vnonzero_nz d) as Hnz. pose proof kTolerance_pos as Htol.
  assert (∀ i v, vols !! i = Some v → (D i < smax)%R → ((0 <= D i)%R → in_box (abbox_of inf v) (along p (vnonzero d) (D i))) ∧ ((D i < 0)%R → in_interior (abbox_of inf v) p)) as Hbox.
  { intros i v Hv L. destruct (Hm i v Hv L) as [A B]. assert (held v) as [Ho _] by (apply Hheld; by eapply elem_of_list_lookup_2). split; intros P.
    - apply tiny_along; [|apply put_box; [done|by apply A]]. rewrite Rabs_right by lra. eapply Rle_lt_trans; [|exact Htiny]. apply Rmult_le_compat_r; [|lra]. unfold kTiny. left. apply Rinv_0_lt_compat, pow_lt. lra.
    - apply (interior_shrunk (1 / 1000)); [lra|]. apply put_box; [done|by apply B]. }
  assert (∀ i v, vols !! i = Some v → (D i < smax)%R → (kernel2 inf (c_extent c) p (vinv (vnonzero d)) (- kTolerance) inf < smax)%R) as Hext.
  { intros i v Hv L. destruct (Hbox i v Hv L) as [A B]. rewrite (co_extent c Hc). pose proof (built_within inf vols v ltac:(by eapply elem_of_list_lookup_2)) as W. destruct (Rle_or_lt 0 (D i)) as [P|P].
    - destruct (kernel2_hit inf (Box (mu_min (built inf vols)) (mu_max (built inf vols))) p (vnonzero d) (- kTolerance) inf (D i)) as [-> ?]; [done| |lra|lra]. specialize (A P). unfold in_box, within in *. lra.
    - assert (in_interior (Box (mu_min (built inf vols)) (mu_max (built inf vols))) p) as I by (specialize (B P); unfold in_interior, within in *; lra).
      destruct (entry_inside _ p (vnonzero d) Hnz I) as [E _]. destruct (kernel2_hit inf (Box (mu_min (built inf vols)) (mu_max (built inf vols))) p (vnonzero d) (- kTolerance) inf 0) as [-> ?]; [done| |lra|lra].
      unfold in_box, in_interior, along, vadd, vscale in *. cbn in *. lra. }
  destruct (rleb_spec smax (kernel2 inf (c_extent c) p (vinv (vnonzero d)) (- kTolerance) inf)) as [L|L].
  - eexists. split; [done|]. split; [|lra]. intros i Hi Li. destruct (lookup_lt_is_Some_2 vols i Hi) as [v Hv]. specialize (Hext i v Hv Li). lra.
  - clear Hext L. destruct (co_nav c Hc) as (s & E & B). rewrite E. cbn [mbind option_bind]. set (t1 := Rmin smax M) in *. assert (t1 <= M)%R as Ht by apply Rmin_r. assert (0 <= t1)%R as Ht0 by (apply Rmin_glb; lra).
    destruct (query_finds kvs M boxes Hk pick pick_ok (λ b, rltb (kernel2 M b p (vinv (vnonzero d)) 0 t1) t1)) as (s' & l & E1 & E2 & N & F).
    { intros K. apply nonempty. by apply fmap_nil_inv in K. } { by apply unreached_empty. } { by apply kernel2_grows. }
    assert (s' = s) as -> by congruence. unfold hit_candidates. rewrite E2. cbn [mbind option_bind].
    set (h := map (λ xb : nat * aabb, (xb.1, kernel2 M xb.2 p (vinv (vnonzero d)) 0 t1)) l).
    assert (∀ i t, (i, t) ∈ h → is_Some (vols !! i)) as Hh. { intros i t K. apply elem_of_list_fmap in K as ([y b] & [= -> ->] & K). apply F in K as [K _]. apply box_lookup_inv in K as (v & K & _). by exists v. }
    destruct (sorted_hits_ok 20000 h) as (h' & E3 & S & P); [|lia|].
    { unfold h. rewrite map_length. rewrite <- (fmap_length fst). etrans; [|exact Hcap]. apply inj_le. rewrite <- (seq_length (length vols) 0). apply submseteq_length, NoDup_submseteq; [done|].
      intros x K. apply elem_of_list_fmap in K as ([y b] & -> & K). apply F in K as [K _]. apply elem_of_seq. apply lookup_lt_Some in K. rewrite fmap_length in K. cbn. lia. }
    rewrite E3. cbn [mbind option_bind]. destruct (in_loop_ok p d smax D h' HD S) with (dist := inf) as (r & E4 & R1 & R2 & R3); [intros i t K; apply (Hh i t); by rewrite <- P|].
    exists r. split; [done|]. split.
    + intros i Hi L. destruct (lookup_lt_is_Some_2 vols i Hi) as [v Hv]. destruct (Hbox i v Hv L) as [A B']. specialize (Hfin i Hi L). assert (D i < t1)%R as Lt by (apply Rmin_glb_lt; lra).
      set (t := kernel2 M (abbox_of inf v) p (vinv (vnonzero d)) 0 t1).
      assert ((0 <= D i → t <= D i) ∧ (D i < 0 → t < 0))%R as [K1 K2]. { split; intros Q; [apply kernel2_entering; [done|by apply A|lra]|apply kernel2_inside; [done|by apply B'|done]]. }
      assert ((i, t) ∈ h') as Ki. { rewrite P. apply elem_of_list_fmap. exists (i, abbox_of inf v). split; [done|]. apply F. split; [by apply box_lookup|]. apply rltb_true. fold t. destruct (Rle_or_lt 0 (D i)) as [Q|Q]; [specialize (K1 Q)|specialize (K2 Q)]; lra. }
      pose proof (R3 i t v Ki Hv L) as Q. split; intros Z; [specialize (K1 Z)|specialize (K2 Z)]; destruct Q as [Q|[Q|Q]]; lra.
    + intros L. destruct R2 as [-> |(i & v & Hv & Er)]; [lra|]. exists i. split; [by eapply lookup_lt_Some|]. destruct (HD i v Hv) as (t & Et & T1 & T2). assert (t = r) as -> by congruence. destruct (Rlt_dec (D i) smax) as [Q|Q]; [by apply T1|]. specialize (T2 ltac:(lra)). lra.
Qed.
(** ** The way out *)
Lemma interior_adjacent p d i j v w a b : vols !! i = Some v → vols !! j = Some w → i ≠ j → vdot d d = 1%R → hits v p d a → pv_inside w (along p d b) = kInside → (Rabs (b - a) < 1 / 2000)%R → adjacent kTolerance boxes i j.
Proof using Hheld.
  intros Hv Hw N Hd A B L. split; [done|]. exists (abbox_of inf v), (abbox_of inf w). split; [by apply box_lookup|]. split; [by apply box_lookup|].
  pose proof (held_shrunk v (along p d a) ltac:(apply Hheld; by eapply elem_of_list_lookup_2) ltac:(by left)) as KA. pose proof (held_shrunk w (along p d b) ltac:(apply Hheld; by eapply elem_of_list_lookup_2) ltac:(right; congruence)) as KB.
  assert (∀ x : R, (x * x <= 1 → - (1 / 2000) < (b - a) * x < 1 / 2000)%R) as K.
  { intros x Hx. cut (Rabs ((b - a) * x) < 1 / 2000)%R; [intros Q; apply Rabs_def2 in Q; lra|]. rewrite Rabs_mult. assert (Rabs x <= 1)%R. { unfold Rabs. destruct (Rcase_abs x); apply Rnot_lt_le; intros Q; [assert (1 * 1 < - x * - x)%R by (apply Rmult_le_0_lt_compat; lra)|assert (1 * 1 < x * x)%R by (apply Rmult_le_0_lt_compat; lra)]; lra. }
    eapply Rle_lt_trans; [|exact L]. rewrite <- (Rmult_1_r (Rabs (b - a))) at 2. apply Rmult_le_compat_l; [apply Rabs_pos|done]. }
  unfold vdot in Hd. pose proof (Rle_0_sqr (vx d)). pose proof (Rle_0_sqr (vy d)). pose proof (Rle_0_sqr (vz d)). unfold Rsqr in *.
  pose proof (K (vx d) ltac:(lra)). pose proof (K (vy d) ltac:(lra)). pose proof (K (vz d) ltac:(lra)). rewrite !Rmult_minus_distr_r in *. pose proof kTolerance_pos.
  unfold meeting, in_box, shrunk, along, vadd, vsub, vscale in *. cbn in *. lra.
Qed.
Lemma cluster_loop_ok p ns : (∀ i, i ∈ ns → is_Some (vols !! i)) → ∃ r, cluster_loop c p ns = Some r ∧
  match r with Some i => i ∈ ns ∧ ∃ v, vols !! i = Some v ∧ pv_inside v p = kInside | None => ∀ i v, i ∈ ns → vols !! i = Some v → pv_inside v p ≠ kInside end.
Proof using Hk pick_ok Hc Hcap Hheld.
  induction ns as [|i l IH]; intros H; cbn [cluster_loop].
  - exists None. split; [done|]. intros i v K. by apply elem_of_nil in K.
  - destruct (H i) as [v Hv]; [left|]. rewrite (co_vols c Hc), Hv. cbn [mbind option_bind]. destruct (pv_inside v p) eqn:E.
    1: exists (Some i); split; [done|]; split; [left|]; by exists v.
    all: destruct IH as (r & -> & Hr); [intros ? ?; apply H; by right|]; exists r; (split; [done|]); destruct r as [j|]; [destruct Hr as [? ?]; split; [by right|done]|]; intros j w [-> | Hj]%elem_of_cons Hw; [congruence|by eapply Hr].
Qed.
Section Out.
Variables (p d : v3) (smax L : R).
Hypothesis Hd : vdot d d = 1%R.
Hypothesis Hend : ∀ v u, v ∈ vols → (L <= u)%R → ¬ hits v p d u.
Hypothesis Hdeep : deep kEps vols p d smax.
Lemma out_loop_ok : ∀ n fuel s k v dstep, n < fuel → (0 <= s)%R → stop kEps vols p d s → (L <= s + INR n * kEps)%R → vols !! k = Some v → pv_inside v (along p d s) = kInside → (kTolerance < dstep)%R →
  ∃ t, out_loop c fuel d smax (along p d s) (Some k) dstep (s - kEps) = Some t ∧ (s < t)%R ∧ covered kEps vols p d s t ∧ left_for_good kEps vols p d t.
Proof using Hk pick_ok Hc Hcap Hheld Hd Hend Hdeep.
  pose proof kTolerance_pos as Htol. assert (0 < kEps)%R as Heps by (unfold kEps; lra). assert (kEps < 1 / 4000)%R as Heps2 by (unfold kEps, kTolerance; lra).
  induction n as [|n IH]; intros fuel s k v dstep Hf Hs Hst HL Hv Hin Hstep.
  - exfalso. cbn in HL. assert (v ∈ vols) as Hvv by (by eapply elem_of_list_lookup_2). destruct (Hdeep v s Hvv Hs Hst Hin) as [K _]. apply (Hend v s Hvv); [lra|done].
  - destruct fuel as [|fuel]; [lia|]. cbn [out_loop]. unfold rgtb. destruct (rltb_spec kTolerance dstep) as [_|]; [|lra]. rewrite (co_vols c Hc), Hv. cbn [mbind option_bind]. assert (v ∈ vols) as Hvv by (by eapply elem_of_list_lookup_2).
    destruct (Hdeep v s Hvv Hs Hst Hin) as (Hhit & t1 & E & Hex & Hlong). change (pv_to_out v (transform (pl_tr v) (along p d s)) (transform_direction (pl_tr v) d) smax) with (pv_to_out_placed v (along p d s) d smax). rewrite E. cbn [mbind option_bind]. cbv zeta.
    assert (stop kEps vols p d (s + t1 + kEps)) as Hst' by (right; exists v, s, t1; split_and!; [done|done|lra|done|done]). destruct Hex as (X1 & X2 & X3). replace (s - kEps + (t1 + kEps))%R with (s + t1)%R by lra.
    destruct (neighbours_ok k ltac:(by eapply lookup_lt_Some)) as (ns & En & _ & Hns). rewrite En. cbn [mbind option_bind].
    (* a neighbour that is found lies in the row *)
    assert (∀ j w, vols !! j = Some w → j ≠ k → pv_inside w (along p d (s + t1 + kEps)) = kInside → j ∈ ns) as Hrow.
    { intros j w Hw N K. apply Hns. set (a := Rmax s (s + t1 - kEps)). apply (interior_adjacent p d k j v w a (s + t1 + kEps)); [done|done|done|done| |done|].
      - apply X2. unfold a. split; [apply Rmax_l|]. apply Rmax_lub_lt; lra.
      - assert (s + t1 - kEps <= a <= s + t1)%R by (unfold a; split; [apply Rmax_r|apply Rmax_lub; lra]). rewrite Rabs_right; lra. }
    assert (covered kEps vols p d s (s + t1)) as Hcov1. { split; [intros u Hu; exists u; split; [lra|]|intros _ u Hu]; exists v; (split; [done|]); by apply X2. }
    assert (∀ e, (0 < e)%R → ∃ u, (s + t1 <= u < s + t1 + e)%R ∧ ¬ hits v p d u) as Hleft by (intros e He; destruct (X3 e He) as (u & ? & ?); by exists u).
    assert ((∀ j w, j ∈ ns → vols !! j = Some w → pv_inside w (along p d (s + t1 + kEps)) ≠ kInside) → left_for_good kEps vols p d (s + t1)) as Hgood.
    { intros H. exists k, v. split; [done|]. split; [done|]. intros j w Hw N K. by apply (H j w (Hrow j w Hw N K)). }
    destruct ns as [|n0 ns'] eqn:Ens.
    + exists (s + t1)%R. split; [done|]. split; [lra|]. split; [done|]. apply Hgood. intros j w K. by apply elem_of_nil in K.
    + rewrite <- Ens in *. replace (vadd (along p d s) (vscale (t1 + kEps) d)) with (along p d (s + t1 + kEps)) by (unfold along, vadd, vscale; cbn; f_equal; ring).
      unfold inside_cluster. rewrite En. cbn [mbind option_bind]. destruct (cluster_loop_ok (along p d (s + t1 + kEps)) ns) as (r & Er & Hr).
      { intros i K. apply Hns in K as (_ & a & b & _ & B & _). apply box_lookup_inv in B as (w & B & _). by exists w. }
      rewrite Er. cbn [mbind option_bind]. destruct r as [j|].
      * destruct Hr as (Hj & w & Hw & Kw). destruct (IH fuel (s + t1 + kEps)%R j w t1) as (t & Et & T1 & [T2 T3] & T4); [lia|lra|done| |done|done|done|].
        { rewrite S_INR in HL. lra. }
        replace (s + t1 + kEps - kEps)%R with (s + t1)%R in Et by lra. exists t. split; [done|]. split; [lra|]. split; [|done].
        assert (w ∈ vols) as Hww by (by eapply elem_of_list_lookup_2). destruct (Hdeep w (s + t1 + kEps)%R Hww ltac:(lra) Hst' Kw) as [Hhw _]. destruct Hcov1 as [C1 C2]. split.
        -- intros u Hu. destruct (Rlt_dec u (s + t1)) as [Q|Q]; [apply C1; lra|]. destruct (Rlt_dec u (s + t1 + kEps)) as [Q'|Q']; [|apply T2; lra]. exists (s + t1 + kEps)%R. split; [lra|]. by exists w.
        -- intros G u Hu. destruct (Rlt_dec u (s + t1)) as [Q|Q]; [apply C2; [done|lra]|]. destruct (Rlt_dec u (s + t1 + kEps)) as [Q'|Q']; [|apply T3; [done|lra]].
           set (a := Rmax s (s + t1 - kEps / 2)). assert (s <= a < s + t1 ∧ s + t1 - kEps / 2 <= a)%R as [A1 A2]. { unfold a. split; [split; [apply Rmax_l|apply Rmax_lub_lt; lra]|apply Rmax_r]. }
           apply (G a (s + t1 + kEps)%R u); [by apply C2|by exists w|lra|lra].
      * exists (s + t1)%R. split; [by destruct fuel; [lia|]|]. split; [lra|]. split; [done|]. by apply Hgood.
Qed.
Theorem to_out_ok n fuel : n < fuel → (L <= INR n * kEps)%R → (∀ v, v ∈ vols → pv_inside v p ≠ kSurface) → some_comp (λ v, pv_inside v p = kInside) vols →
  ∃ t, mu_to_out kvs c fuel p d smax = Some t ∧ (0 < t)%R ∧ covered kEps vols p d 0 t ∧ left_for_good kEps vols p d t.
Proof using Hk pick_ok Hc Hcap Hheld Hd Hend Hdeep.
  intros Hf HL Hsurf (v0 & Hv0 & K0). unfold mu_to_out. destruct (component_ok p) as (r & -> & Hr). cbn [mbind option_bind]. destruct r as [k|].
  - destruct Hr as (v & Hv & K). assert (pv_inside v p = kInside) as Ki. { specialize (Hsurf v ltac:(by eapply elem_of_list_lookup_2)). by destruct (pv_inside v p). }
    destruct (out_loop_ok n fuel 0 k v 1) as (t & E & T); [done|lra|by left|lra|done|by rewrite along_zero|unfold kTolerance; lra|]. rewrite along_zero in E. replace (0 - kEps)%R with (- kEps)%R in E by lra. by exists t.
  - specialize (Hr v0 Hv0). congruence.
Qed.
End Out.
(** ** Order of the candidates, normals *)
Lemma candidates_all p : (∀ v, v ∈ vols → in_interior (abbox_of inf v) p) → candidates kvs c p = in_array 20000 (mjoin (clusters kvs pick (length vols))).
Proof using Hk pick_ok Hc.
  intros Hall. destruct (co_nav c Hc) as (s & E & B). unfold candidates. rewrite E. cbn [mbind option_bind]. assert (boxes ≠ []) as Hb by (intros K; apply nonempty; by apply fmap_nil_inv in K).
  destruct (build_ok kvs M boxes Hk pick pick_ok Hb) as (f & B1 & B2). rewrite B1 in B. injection B as <-. assert (1 ≤ length boxes) as Hn by (destruct boxes; [done|cbn; lia]).
  unfold containing_candidates. rewrite (query_ok kvs M boxes Hk pick pick_ok (Structure (length boxes) f (clusters kvs pick (length boxes))) (λ b, ab_contains b p) Hn eq_refl eq_refl B2 (contains_empty M p)). cbn [mbind option_bind h_nodes]. f_equal. rewrite fmap_length.
  assert (∀ cs, cs ⊆ clusters kvs pick (length vols) → map fst (cs ≫= answer M boxes (λ b, ab_contains b p)) = mjoin cs) as K; [|by apply K].
  induction cs as [|cl cs IH]; intros Hcs; [done|]. rewrite bind_cons, map_app, mjoin_cons, IH by (intros x K; apply Hcs; by right). f_equal.
  assert (∀ x, x ∈ cl → ab_contains (the_box M boxes x) p = true) as Hx.
  { intros x K. assert (x < length vols) as Lx. { pose proof (members_in kvs Hk pick pick_ok (length vols) cl) as F. rewrite Forall_forall in F. apply F; [by rewrite fmap_length in Hn|apply Hcs; left|done]. }
    destruct (lookup_lt_is_Some_2 vols x Lx) as [v Hv]. unfold the_box. rewrite (box_lookup x v Hv). apply ab_contains_iff, Hall. by eapply elem_of_list_lookup_2. }
  unfold answer. destruct cl as [|x cl']; [by destruct (ab_contains _ _)|]. rewrite (contains_grows p _ _ (node_box_within M boxes (x :: cl') x ltac:(left)) (Hx x ltac:(left))).
  clear IH Hcs. induction (x :: cl') as [|y l IH]; [done|]. cbn [fmap list_fmap]. rewrite filter_cons_True by (apply Hx; left). cbn [map fst]. f_equal. apply IH. intros z K. apply Hx. by right.
Qed.
Lemma normal_ok p : (∀ v, v ∈ vols → pl_tr v = tr_one) → some_comp (λ v, pv_inside v p ≠ kOutside) vols →
  ∃ v, v ∈ vols ∧ pv_inside v p ≠ kOutside ∧ mu_normal inf kvs c p = Some (if (facing v p).2 then (facing v p).1 else vzero, (facing v p).2).
Proof using Hk pick_ok Hc Hcap Hheld.
  intros Hone (v0 & Hv0 & K0). unfold mu_normal. destruct (component_ok p) as (r & -> & Hr). cbn [mbind option_bind]. destruct r as [k|].
  - destruct Hr as (v & Hv & K). assert (v ∈ vols) as Hvv by (by eapply elem_of_list_lookup_2). exists v. split; [done|]. split; [done|]. cbn [mbind option_bind]. rewrite (co_vols c Hc), Hv. cbn [mbind option_bind].
    unfold facing, pv_normal. rewrite (Hone v Hvv), !transform_one. destruct (s_normal (pl_shape v) p) as [n b]. cbn. rewrite !inverse_direction_one. by destruct b.
  - specialize (Hr v0 Hv0). congruence.
Qed.
(** ** SafetyToIn of components that are not positive *)
Lemma safety_none_ok p (obj : nat → v3) m : (0 < inf)%R → (0 < M + vx p)%R → (inf <= (M + vx p) * (M + vx p))%R → (m < inf)%R →
  (∀ i v, vols !! i = Some v → in_interior (abbox_of inf v) (obj i) ∧ (vdist p (obj i) * vdist p (obj i) = m)%R ∧ (pv_safety_in v p <= 0)%R) → safety_in_comp inf kvs c p = Some (inf, None).
Proof using Hk pick_ok Hc Hcap Hheld.
  intros Hinf HM Hfar Hm Ho. assert (1 ≤ length boxes) as Hn. { rewrite fmap_length. pose proof nonempty. destruct vols; [done|cbn; lia]. }
  destruct (co_nav c Hc) as (s & E & B). unfold safety_in_comp. rewrite E. cbn [mbind option_bind].
  destruct (build_ok kvs M boxes Hk pick pick_ok) as (f & B1 & B2); [by destruct boxes|]. rewrite B1 in B. injection B as <-.
  set (s := Structure (length boxes) f (clusters kvs pick (length boxes))) in *.
  destruct (lowering_ok kvs M boxes pick s p obj inf m) as (l & E1 & E2 & E3); try done.
  { intros i b K. apply box_lookup_inv in K as (v & K & ->). by apply Ho. }
  { intros i Hi. rewrite fmap_length in Hi. destruct (lookup_lt_is_Some_2 vols i Hi) as [v Hv]. destruct (Ho i v Hv) as (_ & Q & _). lra. }
  rewrite E1. cbn [mbind option_bind]. destruct (sorted_hits_ok 20000 l) as (l' & E4 & S & P); [|lia|].
  { apply cands2_length in E1. cbn [s h_nodes] in E1. destruct (clusters_ok pick pick_ok kvs (length boxes) Hk Hn) as [Q _]. rewrite Q, seq_length, fmap_length in E1. lia. }
  rewrite E4. cbn [mbind option_bind].
  assert (∀ i t, (i, t) ∈ l' → ∃ v, vols !! i = Some v) as HL.
  { intros i t K. rewrite P in K. apply E2 in K as (b & K & ->). apply box_lookup_inv in K as (v & K & _). by exists v. }
  clear E4 S P. induction l' as [|[i t] l' IH]; [done|]. cbn [safety_in_loop fst]. destruct (rgtb t (inf * inf)); [done|]. destruct (HL i t ltac:(left)) as [v Hv]. rewrite (co_vols c Hc), Hv. cbn [mbind option_bind]. cbv zeta.
  unfold rgtb at 1. destruct (rltb_spec 0 (pv_safety_in v p)) as [Q|_]; [destruct (Ho i v Hv) as (_ & _ & Q'); lra|]. cbn [andb]. apply IH. intros j u K. apply (HL j u). by right.
Qed.
End Closed.
