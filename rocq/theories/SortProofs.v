(** Proofs about the hit list sort. *)
From stdpp Require Import list option sorting.
From Coq Require Import ZArith Lia.
From Verif Require Import SortModel.

Section Proofs.
Context {T : Type} (lt : T → T → bool).
Hypothesis lt_trans : ∀ x y z, lt x y = true → lt y z = true → lt x z = true.
Hypothesis ge_trans : ∀ x y z, lt y x = false → lt z y = false → lt z x = false.
Hypothesis lt_irrefl : ∀ x, lt x x = false.
Implicit Types (p r : list T).
(** [a] need not come after [b] *)
Definition le (a b : T) : Prop := lt b a = false.
(** same place in the order *)
Definition same (a b : T) : Prop := lt a b = false ∧ lt b a = false.
Global Instance same_dec a b : Decision (same a b).
Proof. apply and_dec; apply bool_eq_dec. Defined.

Lemma sift_ok p r x v : ∃ a b, p = a ++ b ∧ Forall (λ y, lt v y = true) b ∧ (∀ y, last a = Some y → lt v y = false) ∧
  sift lt (p ++ x :: r) (length p) v = Some (a ++ v :: b ++ r).
Proof.
  revert x r. induction p as [|y p IH] using rev_ind; intros x r.
  - exists [], []. split; [done|]. split; [done|]. split; [done|]. cbn. unfold store. rewrite decide_True; [done|cbn; lia].
  - rewrite app_length, Nat.add_1_r. cbn [sift]. rewrite <- app_assoc. cbn [app]. rewrite list_lookup_middle by done. cbn [mbind option_bind].
    assert (S (length p) < length (p ++ y :: x :: r))%nat as Hlen by (rewrite app_length; cbn; lia).
    assert (∀ z, <[S (length p) := z]> (p ++ y :: x :: r) = p ++ y :: z :: r) as Hw.
    { intros z. replace (S (length p)) with (length p + 1)%nat by lia. by rewrite insert_app_r. }
    destruct (lt v y) eqn:E.
    + unfold store. rewrite decide_True by done. cbn [mbind option_bind]. rewrite Hw.
      destruct (IH y (y :: r)) as (a & b & -> & H2 & H3 & H4). exists a, (b ++ [y]). split; [by rewrite app_assoc|].
      split; [apply Forall_app; split; [done|]; by constructor|]. split; [done|]. rewrite H4. by rewrite <- app_assoc.
    + exists (p ++ [y]), []. split; [by rewrite app_nil_r|]. split; [done|]. split; [intros z; rewrite last_snoc; by intros [= <-]|].
      unfold store. rewrite decide_True by done. rewrite Hw. by rewrite <- app_assoc.
Qed.
Lemma sorted_insert a b v : StronglySorted le (a ++ b) → Forall (λ y, lt v y = true) b → (∀ y, last a = Some y → lt v y = false) →
  StronglySorted le (a ++ v :: b).
Proof.
  intros Hs Hb Ha. induction a as [|z a IH]; cbn in *.
  - constructor; [done|]. eapply Forall_impl; [exact Hb|]. intros y Hy. unfold le. destruct (lt y v) eqn:E; [|done]. pose proof (lt_trans _ _ _ Hy E) as K. by rewrite lt_irrefl in K.
  - inversion Hs as [|? ? Hs' Hf]; subst. constructor.
    + apply IH; [done|]. intros y Hy. apply Ha. destruct a; [done|]. done.
    + rewrite Forall_app in Hf |- *. destruct Hf as [Hf1 Hf2]. split; [done|]. constructor; [|done].
      destruct a as [|w a] using rev_ind; [by apply Ha|]. clear IHa. unfold le. eapply ge_trans; [|apply Ha; rewrite app_comm_cons; by rewrite last_snoc].
      rewrite Forall_app in Hf1. destruct Hf1 as [_ Hf1]. by inversion Hf1.
Qed.
Lemma stable_insert a b v x : Forall (λ y, lt v y = true) b → filter (same x) (a ++ v :: b) = filter (same x) ((a ++ b) ++ [v]).
Proof.
  intros Hb. rewrite <- app_assoc, !stdpp.list.filter_app. f_equal. rewrite !stdpp.list.filter_cons. cbn.
  destruct (decide (same x v)) as [Hx|Hx]; [|by rewrite app_nil_r].
  replace (filter (same x) b) with (@nil T); [done|]. symmetry. induction Hb as [|y b Hy Hb IH]; [done|]. rewrite stdpp.list.filter_cons, decide_False; [done|].
  intros [H1 H2]. destruct Hx as [H3 H4]. assert (lt v y = false); [|congruence]. by eapply (ge_trans _ x).
Qed.
Lemma loop_ok fuel s u rest : StronglySorted le s → (1 ≤ length s)%nat → (Z.of_nat (length s + length u) ≤ 32768)%Z → (length u < fuel)%nat →
  ∃ out, sort_loop lt fuel (Z.of_nat (length s)) (Z.of_nat (length s + length u)) (s ++ u ++ rest) = Some (out ++ rest) ∧ StronglySorted le out ∧
    out ≡ₚ s ++ u ∧ ∀ x, filter (same x) out = filter (same x) (s ++ u).
Proof.
  revert s u. induction fuel as [|f IH]; intros s u Hs H1 Hb Hf; [lia|]. cbn [sort_loop]. destruct u as [|v u].
  - exists s. rewrite app_nil_r. cbn [length app]. rewrite Nat.add_0_r. by rewrite Z.ltb_irrefl.
  - cbn [length] in *. rewrite (proj2 (Z.ltb_lt _ _)) by lia. rewrite Nat2Z.id. rewrite lookup_app_r, Nat.sub_diag by lia. cbn [lookup list_lookup app mbind option_bind].
    unfold to_short. rewrite (proj2 (Z.ltb_lt _ 32768)) by lia. rewrite (proj2 (Z.ltb_ge _ 0)) by lia. rewrite Nat2Z.id.
    destruct (sift_ok s (u ++ rest) v v) as (a & b & -> & H2 & H3 & ->). cbn [mbind option_bind].
    rewrite Z.mod_small by lia.
    destruct (IH (a ++ v :: b) u) as (out & E & O1 & O2 & O3); [by apply sorted_insert| | | |].
    + rewrite app_length. cbn. lia.
    + rewrite !app_length in *. cbn [length] in *. lia.
    + lia.
    + exists out. split; [|split; [done|split]].
      * rewrite app_length in *. cbn [length] in *. rewrite <- E. f_equal; [lia|lia|]. by rewrite <- !app_assoc.
      * rewrite O2. rewrite <- !app_assoc. cbn. rewrite <- !Permutation_middle. rewrite app_assoc. done.
      * intros x. rewrite O3. rewrite (stdpp.list.filter_app _ (a ++ v :: b) u), (stable_insert a b v x H2), <- stdpp.list.filter_app, <- app_assoc. done.
Qed.
Theorem insertionsort_ok l rest : (Z.of_nat (length l) ≤ 32768)%Z →
  ∃ out, insertionsort lt (l ++ rest) (length l) = Some (out ++ rest) ∧ StronglySorted le out ∧ out ≡ₚ l ∧ ∀ x, filter (same x) out = filter (same x) l.
Proof.
  intros Hb. unfold insertionsort. destruct l as [|v u].
  - exists []. cbn. split; [done|]. split; [constructor|]. done.
  - destruct (loop_ok (S (length (v :: u))) [v] u rest) as (out & E & H); [repeat constructor|done|done|cbn; lia|]. by exists out.
Qed.
Lemma loop_short fuel i n arr out : (32768 < n)%Z → (1 ≤ i ≤ 32768)%Z → sort_loop lt fuel i n arr = Some out → False.
Proof.
  revert i arr. induction fuel as [|f IH]; intros i arr Hn Hi; [done|]. cbn [sort_loop]. rewrite (proj2 (Z.ltb_lt _ _)) by lia.
  destruct (arr !! Z.to_nat i); [|done]. cbn [mbind option_bind]. unfold to_short. destruct (Z.ltb_spec i 32768) as [H|H].
  - rewrite (proj2 (Z.ltb_ge _ 0)) by lia. destruct (sift lt arr (Z.to_nat i) t); [|done]. cbn [mbind option_bind]. rewrite Z.mod_small by lia. by apply IH; lia.
  - rewrite (proj2 (Z.ltb_lt _ 0)) by lia. done.
Qed.
Theorem insertionsort_long arr n : (32768 < Z.of_nat n)%Z → insertionsort lt arr n = None.
Proof. intros Hn. unfold insertionsort. destruct (sort_loop _ _ _ _ _) eqn:E; [|done]. exfalso. eapply loop_short; [| |exact E]; lia. Qed.
End Proofs.
