(** Flattening unions (C43). *)
From Coq Require Import Reals Lra Lia.
From stdpp Require Import list option gmap fin_maps.
From Verif Require Import Real3 TransModel TransSpec TransProofs BoolModel BoolSpec FlattenModel FlattenSpec FlattenProofs.
Import stdpp.list.

(** Every volume keeps its points, whatever operands are overwritten or shared; the new multi-union has the points of
    the volume it was made from; the heap stays acyclic and its placements rigid. *)
Theorem C43_points : ∀ fuel min h u h' acc ret rk, flatten fuel min h u None None = Some (h', acc, ret) → ranked rk h → rigid_heap h → is_Some (h !! u) →
  (∀ i S, occupies h i S → occupies h' i S) ∧ (∀ m S, ret = Some m → occupies h u S → occupies h' m S) ∧
  (∃ rk', ranked rk' h') ∧ rigid_heap h'.
Proof.
  intros fuel min h u h' acc ret rk F Hr Hg Hu. destruct (flatten_ok _ _ _ _ _ _ _ _ _ _ F Hr Hg Hu) as [rk' O]; [done|].
  pose proof (o_evolves _ _ _ _ _ _ _ _ _ _ O) as V. split; [intros i S HS; by apply (evolves_stands _ _ i V)|]. split; [|split; [exists rk'; apply O|apply O]].
  intros m S -> HS. destruct (o_ret _ _ _ _ _ _ _ _ _ _ O m eq_refl) as (_ & _ & _ & _ & Sm). eapply occupies_ext; [by apply Sm|]. intros p. apply put_one.
Qed.
Print Assumptions C43_points.
(** With a base transformation and a multi-union to add to: the components appended occupy the volume's points, moved. *)
Theorem C43_components : ∀ fuel min h u t cs h' acc ret rk, flatten fuel min h u (Some t) (Some cs) = Some (h', acc, ret) → ranked rk h → rigid_heap h → rigid t → is_Some (h !! u) →
  ret = None ∧ ∃ new, acc = Some (cs ++ new) ∧ (∀ c, c ∈ new → rigid c.1 ∧ is_Some (h' !! c.2)) ∧ (∀ i S, occupies h i S → occupies h' i S) ∧
  ∀ S, occupies h u S → ∃ G, (∀ j c, new !! j = Some c → occupies h' c.2 (G j)) ∧ ∀ p, S (transform t p) ↔ ∃ j c, new !! j = Some c ∧ G j (transform c.1 p).
Proof.
  intros fuel min h u t cs h' acc ret rk F Hr Hg Ht Hu. destruct (flatten_ok _ _ _ _ _ _ _ _ _ _ F Hr Hg Hu) as [rk' O]; [by intros ? [= <-]|].
  pose proof (o_evolves _ _ _ _ _ _ _ _ _ _ O) as V. destruct (o_acc _ _ _ _ _ _ _ _ _ _ O cs eq_refl) as (-> & new & -> & Gn & Cn & Sn). split; [done|]. exists new. split; [done|]. split; [|split].
  - intros c Hc. split; [by eapply Forall_forall in Gn|by apply Cn].
  - intros i S HS. by apply (evolves_stands _ _ i V).
  - intros S HS. destruct (Sn S HS) as (G & SG & PG). exists G. split; [done|]. intros p. symmetry. apply PG.
Qed.
Print Assumptions C43_components.
(** A new volume is made exactly for a union with enough unions in its tree; with too few, nothing changes. *)
Theorem C43_when : ∀ fuel min h u h' acc ret, flatten fuel min h u None None = Some (h', acc, ret) →
  ∃ k, unions h u k ∧ ((k < min)%nat → h' = h ∧ ret = None) ∧ (is_Some ret ↔ (min ≤ k)%nat ∧ ∃ l r, h !! u = Some (VBool kUnion l r)).
Proof.
  intros fuel min h u h' acc ret F. destruct (flatten_ret _ _ _ _ _ _ _ _ _ F) as (k & Hk & R & K). exists k. split; [done|]. split.
  - intros L. split; [by apply K|]. destruct ret; [|done]. destruct R as [R _]. destruct R as (_ & ? & _); [by eexists|lia].
  - rewrite R. tauto.
Qed.
Print Assumptions C43_when.
(** The result is a multi-union, and none of its components is itself a union with that many unions. *)
Theorem C43_flat : ∀ fuel min h u h' acc m rk, flatten fuel min h u None None = Some (h', acc, Some m) → ranked rk h → rigid_heap h → is_Some (h !! u) →
  ∃ cs, h' !! m = Some (VMulti cs) ∧ ∀ c, c ∈ cs → flat min h' c.2.
Proof.
  intros fuel min h u h' acc m rk F Hr Hg Hu. destruct (flatten_ok _ _ _ _ _ _ _ _ _ _ F Hr Hg Hu) as [rk' O]; [done|].
  by destruct (o_ret _ _ _ _ _ _ _ _ _ _ O m eq_refl) as (_ & _ & _ & ? & _).
Qed.
Print Assumptions C43_flat.
(** It comes to an end without touching a null pointer, if at least one union is asked for. *)
Theorem C43_total : ∀ fuel min h u rk, (1 ≤ min)%nat → ranked rk h → rigid_heap h → is_Some (h !! u) → (rk u < fuel)%nat →
  ∃ h' ret, flatten fuel min h u None None = Some (h', None, ret).
Proof.
  intros fuel min h u rk Hm Hr Hg Hu Hf. destruct (flatten_total min fuel Hm rk h u None None Hr Hg Hu) as [[[h' acc] ret] F]; [done|done|by intros [? ?]|].
  destruct (flatten_ok _ _ _ _ _ _ _ _ _ _ F Hr Hg Hu) as [rk' O]; [done|]. exists h', ret. rewrite F. by rewrite (o_none _ _ _ _ _ _ _ _ _ _ O eq_refl).
Qed.
Print Assumptions C43_total.
(** Asking for none dereferences a null pointer at the first volume that is not Boolean: every tree has one. *)
Theorem C43_zero_refuted : ∀ fuel h u rk base acc, ranked rk h → rigid_heap h → (∀ t, base = Some t → rigid t) → flatten fuel 0 h u base acc = None.
Proof.
  induction fuel as [|fuel IH]; intros h u rk base acc Hr Hg Hb; [done|]. cbn [flatten]. destruct (count_nodes (S fuel) h u (0, 0, 0)%nat) as [[[nu ni] ns]|]; [|done]. cbn [mbind option_bind].
  cbn [Nat.ltb Nat.leb]. destruct (h !! u) as [v|] eqn:E; [|done]. cbn [mbind option_bind]. destruct v as [|op l r|]; try done. cbn [boolean_struct mbind option_bind].
  destruct (is_union op).
  - rewrite (IH _ _ rk _ _ Hr Hg); [done|]. intros ? [= <-]. apply rigid_multiply; [destruct base; [by apply Hb|apply rigid_one]|]. apply (Hg u _ l E). by left.
  - by rewrite (IH _ _ rk _ _ Hr Hg).
Qed.
Print Assumptions C43_zero_refuted.
(** (A ∪ B moved) ∪ (C \ (A ∪ B)) with the union of A and B shared. *)
Definition ex_shared : heap :=
  <[0%N := VLeaf (λ p, rltb (vx p) 0)]> (<[1%N := VLeaf (λ p, rltb (vy p) 0)]> (<[2%N := VLeaf (λ _, true)]>
  (<[3%N := VBool kUnion (tr_one, 0%N) (tr_translation 0 1 0, 1%N)]> (<[4%N := VBool kSubtraction (tr_one, 2%N) (tr_one, 3%N)]>
  (<[5%N := VBool kUnion (tr_translation 1 0 0, 3%N) (tr_one, 4%N)]> ∅))))).
Lemma ex_rank : ranked N.to_nat ex_shared ∧ rigid_heap ex_shared.
Proof.
  assert (∀ u v, ex_shared !! u = Some v → (∀ c, c ∈ children v → rigid c.1 ∧ is_Some (ex_shared !! c.2) ∧ (N.to_nat c.2 < N.to_nat u)%nat)) as K.
  { intros u v E c Hc. unfold ex_shared in E. repeat (apply lookup_insert_Some in E as [[<- <-]|[_ E]]; [
      cbn [children] in Hc; repeat (apply elem_of_cons in Hc as [-> |Hc]; [cbn [fst snd]; split; [apply one_ok || apply translation_ok|split; [unfold ex_shared; repeat (rewrite lookup_insert || rewrite lookup_insert_ne by done); by eexists|lia]]|]); by apply elem_of_nil in Hc|]). by rewrite lookup_empty in E. }
  split; intros u v c E Hc; destruct (K u v E c Hc) as (? & ? & ?); done.
Qed.
Example C43_example : ∃ h' m, flatten 6 2 ex_shared 5 None None = Some (h', None, Some m) ∧ unions ex_shared 5 3 ∧ ∃ S, occupies ex_shared 5 S ∧ occupies h' m S.
Proof.
  destruct ex_rank as [Hr Hg]. assert (∃ v, ex_shared !! 5%N = Some (VBool kUnion v (tr_one, 4%N))) as [v E].
  { eexists. unfold ex_shared. do 5 rewrite lookup_insert_ne by done. by rewrite lookup_insert. }
  destruct (C43_total 6 2 ex_shared 5%N N.to_nat) as (h' & ret & F); [lia|done|done|by rewrite E|cbn; lia|].
  assert (unions ex_shared 5 3) as U.
  { assert (∀ i f, ex_shared !! i = Some (VLeaf f) → unions ex_shared i 0) as L by (intros i f Ei; by eapply uni_leaf).
    assert (unions ex_shared 3 1) as U3.
    { eapply (uni_bool ex_shared 3 kUnion (tr_one, 0%N) (tr_translation 0 1 0, 1%N) 0 0); cbn [snd].
      - unfold ex_shared. do 3 rewrite lookup_insert_ne by done. by rewrite lookup_insert.
      - eapply L. unfold ex_shared. by rewrite lookup_insert.
      - eapply L. unfold ex_shared. rewrite lookup_insert_ne by done. by rewrite lookup_insert. }
    eapply (uni_bool ex_shared 5 kUnion (tr_translation 1 0 0, 3%N) (tr_one, 4%N) 1 1); cbn [snd].
    - unfold ex_shared. do 5 rewrite lookup_insert_ne by done. by rewrite lookup_insert.
    - done.
    - eapply (uni_bool ex_shared 4 kSubtraction (tr_one, 2%N) (tr_one, 3%N) 0 1); cbn [snd]; [| |done].
      + unfold ex_shared. do 4 rewrite lookup_insert_ne by done. by rewrite lookup_insert.
      + eapply L. unfold ex_shared. do 2 rewrite lookup_insert_ne by done. by rewrite lookup_insert. }
  destruct (C43_when _ _ _ _ _ _ _ F) as (k & Hk & _ & R). assert (k = 3%nat) as -> by (by eapply unions_unique). destruct (proj2 R) as [m ->]; [split; [lia|by do 2 eexists]|].
  exists h', m. split; [done|]. split; [done|]. exists (set_of 6 ex_shared 5). assert (occupies ex_shared 5 (set_of 6 ex_shared 5)) as O by (eapply occupies_total; [done|by rewrite E|cbn; lia]).
  split; [done|]. by apply (C43_points _ _ _ _ _ _ _ _ F Hr Hg ltac:(by rewrite E)).
Qed.
