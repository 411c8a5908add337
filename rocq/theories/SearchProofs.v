(** The searches find the nearest daughter. *)
From Coq Require Import Reals Lra Lia.
From stdpp Require Import sets list list_numbers option sorting.
From Verif Require Import Real3 AABBModel AABBSpec AABBProofs ABBoxModel ABBoxProofs HybridModel HybridSpec HybridProofs HybridQuery SortModel SortProofs SearchModel SearchSpec.
Import stdpp.list.
Local Open Scope nat_scope.

Lemma entry_inside b p d : no_zero d → in_interior b p → (fst (entry_exit b p (vinv d)) < 0 < snd (entry_exit b p (vinv d)))%R.
Proof.
  intros (Dx & Dy & Dz) H.
  assert (∀ lo hi q c : R, c ≠ 0%R → (lo < q < hi)%R → ((if rgtb ((lo - q) * (1 / c)) ((hi - q) * (1 / c)) then (hi - q) * (1 / c) else (lo - q) * (1 / c)) < 0 <
    (if rgtb ((lo - q) * (1 / c)) ((hi - q) * (1 / c)) then (lo - q) * (1 / c) else (hi - q) * (1 / c)))%R) as K.
  { intros lo hi q c Hc Hq. destruct (Rlt_dec c 0) as [Hn|Hn].
    - assert (1 / c < 0)%R by (unfold Rdiv; rewrite Rmult_1_l; by apply Rinv_lt_0_compat).
      assert (0 < (q - lo) * (- (1 / c)))%R by (apply Rmult_lt_0_compat; lra). assert (0 < (hi - q) * (- (1 / c)))%R by (apply Rmult_lt_0_compat; lra).
      destruct (rgtb_spec ((lo - q) * (1 / c)) ((hi - q) * (1 / c))); lra.
    - assert (0 < 1 / c)%R by (unfold Rdiv; rewrite Rmult_1_l; apply Rinv_0_lt_compat; lra).
      assert (0 < (q - lo) * (1 / c))%R by (apply Rmult_lt_0_compat; lra). assert (0 < (hi - q) * (1 / c))%R by (apply Rmult_lt_0_compat; lra).
      destruct (rgtb_spec ((lo - q) * (1 / c)) ((hi - q) * (1 / c))); lra. }
  unfold in_interior in H. destruct H as (Hx & Hy & Hz).
  pose proof (K _ _ _ _ Dx Hx) as [Ax Bx]. pose proof (K _ _ _ _ Dy Hy) as [Ay By]. pose proof (K _ _ _ _ Dz Hz) as [Az Bz].
  unfold entry_exit. cbn [fst snd]. unfold vmax, vmin, vmul, vsub, vinv; cbn [vx vy vz]. split.
  - repeat apply Rmax_lub_lt; assumption.
  - repeat apply Rmin_glb_lt; assumption.
Qed.
(** What a box test says about a daughter. *)
Lemma kernel2_entering M b p d t1 t : no_zero d → in_box b (along p d t) → (0 <= t < t1)%R → (kernel2 M b p (vinv d) 0 t1 <= t)%R.
Proof. intros Hd H Ht. destruct (kernel2_hit M b p d 0 t1 t) as [-> ?]; [done|done|lra|done]. Qed.
Lemma kernel2_inside M b p d t1 : no_zero d → in_interior b p → (0 <= t1)%R → (kernel2 M b p (vinv d) 0 t1 < 0)%R.
Proof.
  intros Hd H Ht. destruct (entry_inside b p d Hd H) as [E _]. destruct (kernel2_hit M b p d 0 t1 0) as [-> ?]; [done| |lra|done].
  unfold in_interior in H. unfold in_box, along, vadd, vscale; cbn. lra.
Qed.
Lemma unreached_empty M p d t1 : no_zero d → unreached M p d t1 → (t1 <= M)%R → rltb (kernel2 M (empty_box M) p (vinv d) 0 t1) t1 = false.
Proof.
  intros (Dx & Dy & Dz) H HM. apply rltb_false. unfold kernel2, empty_box; cbn [bmin bmax vx vy vz vinv].
  assert (∀ s, corner s (- M) (- M) = (- M)%R) as C by (by intros []). rewrite !C. clear C. cbv zeta.
  destruct (rgtb_spec ((- M - vx p) * (1 / vx d)) ((- M - vy p) * (1 / vy d))) as [|A1]; [lra|]. destruct (rgtb_spec ((- M - vy p) * (1 / vy d)) ((- M - vx p) * (1 / vx d))) as [|A2]; [lra|].
  set (t := ((- M - vx p) * (1 / vx d))%R) in *. set (u := ((- M - vy p) * (1 / vy d))%R) in *. assert (u = t) as Eu by lra. rewrite Eu.
  rewrite Rmax_left, Rmin_left by lra. set (w := ((- M - vz p) * (1 / vz d))%R).
  destruct (rgtb_spec t w) as [|A3]; [cbn [orb]; lra|]. destruct (rgtb_spec w t) as [|A4]; [cbn [orb]; lra|]. cbn [orb]. assert (w = t) as Ew by lra. rewrite Ew.
  rewrite Rmax_left, Rmin_left by lra. destruct (rleb_spec t (t1 + kTolerance)); [|cbn [andb negb]; lra]. destruct (rgtb_spec t (0 - kTolerance)) as [A5|]; [|cbn [andb negb]; lra]. cbn [andb negb].
  destruct (Rlt_dec t t1) as [L|L]; [|lra]. exfalso. apply (H t); [lra|].
  assert (∀ x c : R, c ≠ 0%R → ((- M - x) * (1 / c) = t → x + t * c = - M)%R) as K.
  { intros x c Hc <-. field. done. }
  unfold along, vadd, vscale; cbn [vx vy vz]. rewrite (K (vx p) (vx d) Dx eq_refl), (K (vy p) (vy d) Dy Eu), (K (vz p) (vz d) Dz Ew). done.
Qed.

(** Searching through a list of candidates. *)
Section Loop.
Variables (dau : list N) (D : N → R) (dti : N → R → R) (last : option N) (step0 : R) (hit0 : option N).
Hypothesis Hex : exact_below D dti.
Definition reached (st : R * option N) : Prop :=
  (st.1 <= step0)%R ∧ ((st.1 = step0 ∧ st.2 = hit0) ∨ ∃ v, v ∈ dau ∧ counts D last v ∧ st.2 = Some v ∧ st.1 = D v ∧ (D v < step0)%R).
Lemma try_ok v st : v ∈ dau → reached st → reached (try_daughter dti last v st) ∧ ((try_daughter dti last v st).1 <= st.1)%R ∧ (counts D last v → ((try_daughter dti last v st).1 <= D v)%R).
Proof.
  intros Hv [H1 H2]. destruct (Hex v st.1) as [E1 E2]. unfold try_daughter. cbv zeta. destruct (Rlt_dec (D v) st.1) as [L|L].
  - rewrite (E1 L). destruct (rltb_spec (D v) st.1); [|lra]. cbn [andb]. destruct (rleb_spec (D v) 0) as [Z|Z]; cbn [andb negb].
    + destruct (bool_decide_reflect (Some v = last)) as [B|B]; cbn [negb].
      * split; [done|]. split; [lra|]. intros C. exfalso. by apply C.
      * split; [|cbn; split; [lra|intros; lra]]. split; [cbn; lra|]. right. exists v. cbn. split; [done|]. split; [intros [_ ?]; done|]. split; [done|]. split; [done|]. lra.
    + split; [|cbn; split; [lra|intros; lra]]. split; [cbn; lra|]. right. exists v. cbn. split; [done|]. split; [intros [? _]; lra|]. split; [done|]. split; [done|]. lra.
  - assert (st.1 <= dti v st.1)%R by (apply E2; lra). destruct (rltb_spec (dti v st.1) st.1); [lra|]. cbn [andb]. split; [done|]. split; [lra|]. intros _. lra.
Qed.
Lemma simple_ok : nearest dau D last step0 hit0 (simple_search dau dti last (step0, hit0)).
Proof.
  unfold simple_search. assert (∀ l st, (∀ v, v ∈ l → v ∈ dau) → reached st → let r := foldl (λ s v, try_daughter dti last v s) st l in reached r ∧ (r.1 <= st.1)%R ∧ ∀ v, v ∈ l → counts D last v → (r.1 <= D v)%R) as K.
  { induction l as [|v l IH]; intros st Hl Hst; cbn [foldl].
    - split; [done|]. split; [lra|]. intros v H. by apply elem_of_nil in H.
    - destruct (try_ok v st) as (T1 & T2 & T3); [apply Hl; left|done|]. destruct (IH (try_daughter dti last v st)) as (A & B & C); [intros w Hw; apply Hl; by right|done|].
      split; [done|]. split; [cbn in *; lra|]. intros w [-> | Hw]%elem_of_cons Hc; [specialize (T3 Hc); cbn in *; lra|by apply C]. }
  destruct (K dau (step0, hit0)) as ([A1 A2] & _ & C); [done|split; [cbn; lra|by left]|]. split; [done|]. split; [done|]. done.
Qed.
(** A sorted list of candidates. *)
Definition covers (hits : list (nat * R)) : Prop :=
  (∀ i t, (i, t) ∈ hits → is_Some (dau !! i)) ∧
  ∀ i v, dau !! i = Some v → (D v < step0)%R → ∃ t, (i, t) ∈ hits ∧ ((0 <= D v)%R → (t <= D v)%R) ∧ ((D v < 0)%R → D v = (-1)%R ∧ (t <= 0)%R).
Hypothesis Hneg : ∀ v, v ∈ dau → (D v < step0)%R → (D v < 0)%R → D v = (-1)%R.
Hypothesis Hstep : (0 <= step0)%R.
Lemma break_ok hits st : StronglySorted (SortProofs.le hits_before) hits → reached st → (∀ i t, (i, t) ∈ hits → (st.1 < t)%R) →
  ∀ i t v, (i, t) ∈ hits → dau !! i = Some v → ((0 <= D v)%R → (t <= D v)%R) → ((D v < 0)%R → D v = (-1)%R ∧ (t <= 0)%R) → (st.1 <= D v)%R.
Proof.
  intros _ [H1 H2] Hb i t v Hi Hv A B. specialize (Hb i t Hi). destruct (Rle_or_lt 0 (D v)) as [P|P]; [specialize (A P); lra|]. destruct (B P) as [E T].
  destruct H2 as [[E0 _]|(w & Hw & _ & _ & E0 & Lw)]; [lra|]. destruct (Rle_or_lt 0 (D w)) as [Q|Q]; [lra|]. rewrite E0, (Hneg w Hw Lw Q). lra.
Qed.
Lemma sorted_tail i t hits st : StronglySorted (SortProofs.le hits_before) ((i, t) :: hits) → (st < t)%R → ∀ i' t', (i', t') ∈ (i, t) :: hits → (st < t')%R.
Proof.
  intros S L i' t' K. apply StronglySorted_inv in S as [_ F]. apply elem_of_cons in K as [K|K]; [by injection K as -> ->|]. rewrite Forall_forall in F. specialize (F _ K). unfold SortProofs.le, hits_before in F. cbn in F. apply rltb_false in F. lra.
Qed.
Lemma walk_ok (walk : list (nat * R) → R * option N → option (R * option N)) :
  (∀ st, walk [] st = Some st) → (∀ i t r v st, dau !! i = Some v → (st.1 <= step0)%R → walk ((i, t) :: r) st = if rltb st.1 t then Some st else walk r (try_daughter dti last v st)) →
  ∀ hits, StronglySorted (SortProofs.le hits_before) hits → covers hits → ∃ r, walk hits (step0, hit0) = Some r ∧ nearest dau D last step0 hit0 r.
Proof.
  intros W0 W1 hits0 S0 [C1 C2].
  assert (∀ hits st, StronglySorted (SortProofs.le hits_before) hits → (∀ i t, (i, t) ∈ hits → is_Some (dau !! i)) → reached st →
    ∃ r, walk hits st = Some r ∧ reached r ∧ (r.1 <= st.1)%R ∧ ∀ i t v, (i, t) ∈ hits → dau !! i = Some v → ((0 <= D v)%R → (t <= D v)%R) → ((D v < 0)%R → D v = (-1)%R ∧ (t <= 0)%R) → counts D last v → (r.1 <= D v)%R) as K.
  { induction hits as [|[i t] hits IH]; intros st S I Hst.
    - exists st. rewrite W0. split; [done|]. split; [done|]. split; [lra|]. intros i t v H. by apply elem_of_nil in H.
    - destruct (I i t) as [v Hv]; [left|]. rewrite (W1 _ _ _ v _ Hv (proj1 Hst)). destruct (rltb_spec st.1 t) as [L|L].
      + exists st. split; [done|]. split; [done|]. split; [lra|]. intros i' t' v' Hi Hv' A B _. eapply break_ok; [exact S|done| |exact Hi|done|done|done]. by apply sorted_tail.
      + destruct (try_ok v st) as (T1 & T2 & T3); [by eapply elem_of_list_lookup_2|done|].
        destruct (IH (try_daughter dti last v st)) as (r & E & R1 & R2 & R3); [by apply StronglySorted_inv in S as [? _]|intros ? ? ?; eapply I; by right|done|].
        exists r. split; [done|]. split; [done|]. split; [lra|]. intros i' t' v' [X | Hi]%elem_of_cons Hv' A B Hc.
        * injection X as -> ->. assert (v' = v) as -> by congruence. specialize (T3 Hc). lra.
        * by eapply R3. }
  destruct (K hits0 (step0, hit0)) as (r & E & [R1 R2] & R3 & R4); [done|done|split; [cbn; lra|by left]|].
  exists r. split; [done|]. split; [done|]. split; [|done]. intros v Hv Hc. destruct (Rlt_dec (D v) step0) as [L|L]; [|lra].
  apply elem_of_list_lookup in Hv as [i Hi]. destruct (C2 i v Hi L) as (t & Ht & A & B). by eapply R4.
Qed.
End Loop.

Lemma sorted_hits_ok cap hits : (Z.of_nat (length hits) ≤ cap)%Z → (cap ≤ 32768)%Z → ∃ out, sorted_hits cap hits = Some out ∧ StronglySorted (SortProofs.le hits_before) out ∧ out ≡ₚ hits.
Proof.
  intros H1 H2. unfold sorted_hits. rewrite decide_True by done. destruct (insertionsort_ok hits_before) with (l := hits) (rest := @nil (nat * R)) as (out & E & S & P & _).
  - intros x y z. unfold hits_before. rewrite !rltb_true. lra.
  - intros x y z. unfold hits_before. rewrite !rltb_false. lra.
  - intros x. unfold hits_before. apply rltb_false. lra.
  - lia.
  - rewrite !app_nil_r in E. by exists out.
Qed.
Lemma covers_perm dau D step0 h h' : h ≡ₚ h' → covers dau D step0 h → covers dau D step0 h'.
Proof. intros P [A B]. split; [intros i t; rewrite <- P; apply A|]. intros i v H1 H2. destruct (B i v H1 H2) as (t & T & ?). exists t. by rewrite <- P. Qed.

Section Both.
Variables (kvs : nat) (M : R) (dau : list N) (boxes : list aabb) (D : N → R) (dti : N → R → R) (last : option N) (p dir : v3) (step0 : R) (hit0 : option N).
Hypothesis Hk : 1 ≤ kvs.
Hypothesis Hex : exact_below D dti.
Hypothesis Hstep : (0 <= step0)%R.
Hypothesis HM : (0 <= M)%R.
Hypothesis Hfin : ∀ v, v ∈ dau → (D v < step0)%R → (D v < M)%R.
Lemma hold_neg d : boxes_hold boxes dau D p d step0 → ∀ v, v ∈ dau → (D v < step0)%R → (D v < 0)%R → D v = (-1)%R.
Proof.
  intros [Hl H] v Hv L N. apply elem_of_list_lookup in Hv as [i Hi]. destruct (lookup_lt_is_Some_2 boxes i) as [b Hb]; [rewrite Hl; by eapply lookup_lt_Some|].
  destruct (H i b v Hb Hi L) as [_ B]. by apply B.
Qed.
Lemma abbox_elem i t : (i, t) ∈ abbox_hits kvs M boxes p dir ↔ i < ceil_div (length boxes) kvs * kvs ∧ t = kernel2 M (vector_lane M boxes i) p (vinv dir) 0 M ∧ (t < M)%R.
Proof.
  unfold abbox_hits. rewrite elem_of_list_bind. split.
  - intros (b & K & Hb). apply elem_of_list_bind in K as (j & K & Hj). apply elem_of_seq in Hb, Hj. cbv zeta in K. destruct (rltb_spec (kernel2 M (vector_lane M boxes (b * kvs + j)) p (vinv dir) 0 M) M); [|by apply elem_of_nil in K].
    apply elem_of_list_singleton in K. injection K as -> ->. split; [|done]. assert ((b + 1) * kvs ≤ ceil_div (length boxes) kvs * kvs) by (apply Nat.mul_le_mono_r; lia). lia.
  - intros (Hi & -> & L). exists (i / kvs). pose proof (Nat.div_mod i kvs ltac:(lia)) as E. pose proof (Nat.mod_upper_bound i kvs ltac:(lia)) as U. split.
    + apply elem_of_list_bind. exists (i mod kvs). split; [|apply elem_of_seq; lia]. cbv zeta. replace (i / kvs * kvs + i mod kvs) with i by lia. destruct (rltb_spec (kernel2 M (vector_lane M boxes i) p (vinv dir) 0 M) M); [|lra]. by apply elem_of_list_singleton.
    + apply elem_of_seq. split; [lia|]. apply Nat.div_lt_upper_bound; lia.
Qed.
Lemma abbox_covers : no_zero dir → boxes_hold boxes dau D p dir step0 → unreached M p dir M → covers dau D step0 (abbox_hits kvs M boxes p dir).
Proof.
  intros Hnz [Hl Hb] Hu. split.
  - intros i t K. apply abbox_elem in K as (Hi & -> & L). unfold vector_lane in L. destruct (boxes !! i) as [b|] eqn:Eb; cbn in L.
    + apply lookup_lt_Some in Eb. apply lookup_lt_is_Some_2. lia.
    + exfalso. apply rltb_true in L. rewrite unreached_empty in L; [done|done|done|lra].
  - intros i v Hi L. pose proof (lookup_lt_Some _ _ _ Hi) as Li. destruct (lookup_lt_is_Some_2 boxes i) as [b Eb]; [lia|]. destruct (Hb i b v Eb Hi L) as [A B].
    assert (v ∈ dau) as Hv by (by eapply elem_of_list_lookup_2). specialize (Hfin v Hv L).
    exists (kernel2 M b p (vinv dir) 0 M). assert (i < ceil_div (length boxes) kvs * kvs) as Hc. { destruct (ceil_div_spec (length boxes) kvs Hk) as [? _]. lia. }
    destruct (Rle_or_lt 0 (D v)) as [P|P].
    + pose proof (kernel2_entering M b p dir M (D v) Hnz (A P) ltac:(lra)). split; [|split; intros; lra]. apply abbox_elem. unfold vector_lane. rewrite Eb. cbn. split; [done|]. split; [done|lra].
    + destruct (B P) as [E I]. pose proof (kernel2_inside M b p dir M Hnz I HM). split; [|split; intros; lra]. apply abbox_elem. unfold vector_lane. rewrite Eb. cbn. split; [done|]. split; [done|lra].
Qed.
Theorem abbox_ok : no_zero dir → boxes_hold boxes dau D p dir step0 → unreached M p dir M → (Z.of_nat (length (abbox_hits kvs M boxes p dir)) ≤ 2000)%Z →
  ∃ r, abbox_search dau dti last kvs M boxes p dir (step0, hit0) = Some r ∧ nearest dau D last step0 hit0 r.
Proof.
  intros Hnz Hb Hu Hcap. unfold abbox_search. destruct (decide (dau = [])) as [-> | Hd].
  - exists (step0, hit0). split; [done|]. split; [cbn; lra|]. split; [|by left]. intros v H. by apply elem_of_nil in H.
  - destruct (sorted_hits_ok 2000 _ Hcap ltac:(lia)) as (h & E & S & P). destruct dau as [|v0 dau'] eqn:Ed; [done|]. rewrite <- Ed in *. rewrite E. cbn [mbind option_bind].
    apply (walk_ok dau D dti last step0 hit0 Hex); [by apply (hold_neg dir)|done|done| |done|].
    + intros i t r v st Hv. cbn [try_sorted]. by rewrite Hv.
    + eapply covers_perm; [by symmetry|]. by apply abbox_covers.
Qed.
Variable pick : nat → list nat → list nat → nat.
Hypothesis pick_ok : ∀ ci cl set, set ≠ [] → pick ci cl set ∈ set.
Theorem hybrid_ok : boxes_hold boxes dau D p (vnonzero dir) step0 → unreached M p (vnonzero dir) (Rmin step0 M) → (Z.of_nat (length dau) ≤ 20000)%Z →
  ∃ r, hybrid_search dau dti last kvs M boxes p dir pick (step0, hit0) = Some r ∧ nearest dau D last step0 hit0 r.
Proof.
  intros [Hl Hb] Hu Hcap. unfold hybrid_search. destruct (decide (dau = [])) as [-> | Hd].
  - exists (step0, hit0). split; [done|]. split; [cbn; lra|]. split; [|by left]. intros v H. by apply elem_of_nil in H.
  - assert (boxes ≠ []) as Hne. { intros ->. destruct dau; [done|]. cbn in Hl. lia. }
    set (t1 := Rmin step0 M) in *. assert (t1 <= M)%R as Ht by apply Rmin_r. pose proof (vnonzero_nz dir) as Hnz. assert (0 <= t1)%R as Ht0 by (by apply Rmin_glb).
    destruct (query_finds kvs M boxes Hk pick pick_ok (λ b, rltb (kernel2 M b p (vinv (vnonzero dir)) 0 t1) t1) Hne) as (s & l & E1 & E2 & N & F).
    { by apply unreached_empty. } { by apply kernel2_grows. }
    assert (∃ h, hit_candidates kvs M s p (vinv (vnonzero dir)) t1 = Some h ∧ (Z.of_nat (length h) ≤ 20000)%Z ∧ covers dau D step0 h) as (h & E3 & Lh & Ch).
    { unfold hit_candidates. rewrite E2. cbn [mbind option_bind]. eexists. split; [done|]. split.
      - rewrite map_length. rewrite <- (fmap_length fst). etrans; [|exact Hcap]. apply inj_le. rewrite <- Hl. rewrite <- (seq_length (length boxes) 0). apply submseteq_length, NoDup_submseteq; [done|].
        intros x K. apply elem_of_list_fmap in K as ([y b] & -> & K). apply F in K as [K _]. apply elem_of_seq. apply lookup_lt_Some in K. cbn. lia.
      - split.
        + intros i t K. apply elem_of_list_fmap in K as ([y b] & [= -> ->] & K). apply F in K as [K _]. apply lookup_lt_Some in K. apply lookup_lt_is_Some_2. cbn. lia.
        + intros i v Hi L. pose proof (lookup_lt_Some _ _ _ Hi) as Li. destruct (lookup_lt_is_Some_2 boxes i) as [b Eb]; [lia|]. destruct (Hb i b v Eb Hi L) as [A B].
          assert (v ∈ dau) as Hv by (by eapply elem_of_list_lookup_2). specialize (Hfin v Hv L). assert (D v < t1)%R as Lt by (by apply Rmin_glb_lt).
          exists (kernel2 M b p (vinv (vnonzero dir)) 0 t1).
          assert ((0 <= D v → kernel2 M b p (vinv (vnonzero dir)) 0 t1 <= D v) ∧ (D v < 0 → kernel2 M b p (vinv (vnonzero dir)) 0 t1 < 0))%R as [K1 K2].
          { split; intros P; [by apply kernel2_entering; [|apply A|]|]. destruct (B P) as [_ I]. by apply kernel2_inside. }
          split; [|split; [done|]; intros P; destruct (B P); specialize (K2 P); split; [done|lra]].
          apply elem_of_list_fmap. exists (i, b). split; [done|]. apply F. split; [done|]. apply rltb_true. destruct (Rle_or_lt 0 (D v)) as [P|P]; [specialize (K1 P)|specialize (K2 P)]; lra. }
    rewrite E1. cbn [mbind option_bind]. change ((step0, hit0).1) with step0. fold t1. rewrite E3. cbn [mbind option_bind].
    destruct (sorted_hits_ok 20000 h Lh ltac:(lia)) as (h' & E & S & P). rewrite E. cbn [mbind option_bind]. destruct dau as [|v0 dau'] eqn:Ed; [done|]. rewrite <- Ed in *.
    apply (walk_ok dau D dti last step0 hit0 Hex); [by apply (hold_neg (vnonzero dir))|done|done| |done|].
    + intros i t r v st Hv. cbn [try_hook]. by rewrite Hv.
    + eapply covers_perm; [by symmetry|done].
Qed.
End Both.
(** Two nearest answers agree. *)
Lemma nearest_agree dau D last step0 hit0 r r' : nearest dau D last step0 hit0 r → nearest dau D last step0 hit0 r' → r.1 = r'.1 ∧
  ((∀ v w, v ∈ dau → w ∈ dau → counts D last v → counts D last w → D v = D w → v = w) → r = r').
Proof.
  intros (A1 & A2 & A3) (B1 & B2 & B3). assert (r.1 = r'.1) as E.
  { destruct A3 as [[E _]|(v & Hv & Cv & _ & E & L)], B3 as [[F _]|(w & Hw & Cw & _ & F & K)]; [lra|pose proof (A2 w Hw Cw); lra|pose proof (B2 v Hv Cv); lra|pose proof (A2 w Hw Cw); pose proof (B2 v Hv Cv); lra]. }
  split; [done|]. intros U. destruct r as [s h], r' as [s' h']. cbn in *. subst s'. f_equal.
  destruct A3 as [[E E']|(v & Hv & Cv & E' & E & L)], B3 as [[F F']|(w & Hw & Cw & F' & F & K)]; [congruence|lra|lra|]. rewrite E', F'. f_equal. apply U; try done. congruence.
Qed.
(** The hit list of the first navigator is no longer than the list of boxes. *)
Lemma blocks {A} (f : nat → list A) k m b : (seq b m ≫= λ x, seq 0 k ≫= λ i, f (x * k + i)) = (seq (b * k) (m * k) ≫= f).
Proof.
  revert b. induction m as [|m IH]; intros b; [done|]. cbn [seq Nat.mul]. rewrite bind_cons, IH, seq_app, bind_app. f_equal; [|f_equal; f_equal; lia].
  generalize (b * k) as o. clear. intros o. transitivity (seq (o + 0) k ≫= f); [|by rewrite Nat.add_0_r]. generalize 0 as z. induction k as [|k IH]; intros z; [done|]. cbn [seq]. rewrite !bind_cons. f_equal. rewrite IH. f_equal. f_equal. lia.
Qed.
Lemma abbox_length kvs M boxes p dir : 1 ≤ kvs → no_zero dir → unreached M p dir M → length (abbox_hits kvs M boxes p dir) ≤ length boxes.
Proof.
  intros Hk Hnz Hu. unfold abbox_hits. set (f := λ x, let t := kernel2 M (vector_lane M boxes x) p (vinv dir) 0 M in if rltb t M then [(x, t)] else []).
  change (length (seq 0 (ceil_div (length boxes) kvs) ≫= λ x, seq 0 kvs ≫= λ i, f (x * kvs + i)) ≤ length boxes). rewrite blocks. rewrite Nat.mul_0_l.
  assert (∀ n o, (seq o n ≫= f).*1 `sublist_of` seq o n) as S.
  { induction n as [|n IH]; intros o; [done|]. cbn [seq]. rewrite bind_cons, fmap_app. unfold f at 1. cbv zeta. destruct (rltb _ _); cbn; [by apply sublist_skip|by apply sublist_cons]. }
  rewrite <- (fmap_length fst). transitivity (length (seq 0 (length boxes))); [|by rewrite seq_length]. apply submseteq_length, NoDup_submseteq.
  - eapply sublist_nodup; [apply S|apply NoDup_seq].
  - intros x K. apply elem_of_list_fmap in K as ([y t] & -> & K). apply elem_of_list_bind in K as (z & K & _). unfold f in K. cbv zeta in K. destruct (rltb (kernel2 M (vector_lane M boxes z) p (vinv dir) 0 M) M) eqn:T; [|by apply elem_of_nil in K].
    apply elem_of_list_singleton in K. injection K as -> _. cbn. apply elem_of_seq. split; [lia|]. destruct (decide (z < length boxes)); [done|exfalso].
    unfold vector_lane in T. rewrite lookup_ge_None_2 in T by lia. cbn in T. rewrite unreached_empty in T; [done|done|done|lra].
Qed.
(** The point that fills unused lanes is out of reach of sensible rays. *)
Lemma far_unreached M p dir t1 : (1 <= M)%R → (t1 <= M)%R → (vdot dir dir <= 3 / 2)%R → (Rabs (vx p) <= M / 4)%R → (Rabs (vy p) <= M / 4)%R → (Rabs (vz p) <= M / 4)%R → unreached M p dir t1.
Proof.
  intros HM Ht Hd Px Py Pz t Hb E. unfold along, vadd, vscale in E. injection E as Ex Ey Ez. apply abs_le_inv in Px, Py, Pz.
  assert (t * t <= M * M)%R as T. { assert (Rabs t <= M)%R. { unfold Rabs. destruct (Rcase_abs t); [|lra]. unfold kTolerance in Hb. lra. } rewrite <- (Rabs_right (t * t)) by (pose proof (Rle_0_sqr t); unfold Rsqr in *; lra). rewrite Rabs_mult. apply Rmult_le_compat; try lra; apply Rabs_pos. }
  assert (∀ x d, (- (M / 4) <= x <= M / 4 → x + t * d = - M → 9 / 16 * (M * M) <= (t * t) * (d * d))%R) as K.
  { intros x d Hx Hq. replace (t * t * (d * d))%R with ((M + x) * (M + x))%R by (replace (M + x)%R with (- (t * d))%R by lra; ring).
    assert ((3 / 4 * M) * (3 / 4 * M) <= (M + x) * (M + x))%R by (apply Rmult_le_compat; lra). lra. }
  pose proof (K _ _ Px Ex). pose proof (K _ _ Py Ey). pose proof (K _ _ Pz Ez). unfold vdot in Hd.
  assert ((t * t) * (vx dir * vx dir + vy dir * vy dir + vz dir * vz dir) <= (M * M) * (3 / 2))%R.
  { apply Rmult_le_compat; try lra. - pose proof (Rle_0_sqr t). unfold Rsqr in *. lra. - pose proof (Rle_0_sqr (vx dir)). pose proof (Rle_0_sqr (vy dir)). pose proof (Rle_0_sqr (vz dir)). unfold Rsqr in *. lra. }
  assert (0 < M * M)%R by (apply Rmult_lt_0_compat; lra). lra.
Qed.
(** The variants with a blocked volume, when every daughter lies ahead. *)
Section Blocked.
Variables (dau : list N) (D : N → R) (dti : N → R → R) (ndot : N → R) (blocked : option N).
Hypothesis Hex : exact_below D dti.
Hypothesis Hahead : ∀ v, v ∈ dau → (0 < D v)%R.
Lemma ahead_counts last v : v ∈ dau → counts D last v.
Proof. intros Hv [H _]. specialize (Hahead v Hv). lra. Qed.
Lemma nearest_ahead last last' step0 hit0 r : nearest dau D last step0 hit0 r → nearest dau D last' step0 hit0 r.
Proof.
  intros (A & B & C). split; [done|]. split; [intros v Hv _; apply B; [done|by apply ahead_counts]|]. destruct C as [C|(v & Hv & _ & C)]; [by left|right]. exists v. split; [done|]. split; [by apply ahead_counts|done].
Qed.
Lemma simple_blocked_eq st : (∀ b, blocked = Some b → (ndot b < 1 / 1000)%R) → simple_blocked dau dti blocked ndot st = simple_search dau dti None st.
Proof.
  intros H. unfold simple_blocked, simple_search. assert (match blocked with Some b => if rleb (1 / 1000) (ndot b) then Some b else None | None => None end = None) as ->.
  { destruct blocked as [b|]; [|done]. specialize (H b eq_refl). destruct (rleb_spec (1 / 1000) (ndot b)); [lra|done]. }
  revert st. induction dau as [|v l IH]; intros st; [done|]. cbn [foldl]. rewrite bool_decide_eq_false_2 by done. unfold try_daughter at 2. rewrite bool_decide_eq_false_2 by done. rewrite andb_false_r, andb_true_r.
  apply IH. intros w Hw. apply Hahead. by right.
Qed.
Lemma abbox_try_eq v st : v ∈ dau → try_abbox_blocked dti blocked ndot v st = try_daughter dti None v st.
Proof.
  intros Hv. unfold try_abbox_blocked, try_daughter. cbv zeta. destruct (Hex v st.1) as [E1 E2]. specialize (Hahead v Hv). destruct (Rlt_dec (D v) st.1) as [L|L].
  - rewrite (E1 L). destruct (rleb_spec (D v) 0); [lra|]. done.
  - destruct (rltb_spec (dti v st.1) st.1); [|done]. specialize (E2 ltac:(lra)). lra.
Qed.
End Blocked.
(** The second navigator with a blocked volume, in general. *)
Lemma abbox_skip (dau : list N) D dti ndot blocked step0 (skip : N → Prop) : (∀ v, skip v ↔ (D v <= 0)%R ∧ (Some v = blocked ∨ (0 < ndot v)%R)) → exact_below D dti → (0 <= step0)%R →
  ∃ D' dti', exact_below D' dti' ∧ (∀ v, skip v → D' v = step0) ∧ (∀ v, ¬ skip v → D' v = D v) ∧ ∀ v st, v ∈ dau → (st.1 <= step0)%R → try_abbox_blocked dti blocked ndot v st = try_daughter dti' None v st.
Proof.
  intros Hs Hex H0. assert (∀ v, {skip v} + {¬ skip v}) as dec.
  { intros v. destruct (Rle_dec (D v) 0) as [A|A]; [|right; rewrite Hs; tauto]. destruct (decide (Some v = blocked)) as [B|B]; [left; rewrite Hs; tauto|]. destruct (Rlt_dec 0 (ndot v)) as [C|C]; [left; rewrite Hs; tauto|right; rewrite Hs; tauto]. }
  exists (λ v, if dec v then step0 else D v), (λ v st, if dec v then Rmin step0 st else dti v st). split; [|split; [|split]].
  - intros v st. destruct (dec v); [|apply Hex]. split; intros; [rewrite Rmin_left; lra|rewrite Rmin_right; lra].
  - intros v Hv. by destruct (dec v).
  - intros v Hv. by destruct (dec v).
  - intros v st Hv L. unfold try_abbox_blocked, try_daughter. cbv zeta. destruct (Hex v st.1) as [E1 E2]. rewrite (bool_decide_eq_false_2 (Some v = None)) by done. rewrite andb_false_r, andb_true_r. destruct (dec v) as [S|S].
    + rewrite Rmin_right by lra. destruct (rltb_spec st.1 st.1); [lra|]. apply Hs in S as [S1 S2].
      destruct (rltb_spec (dti v st.1) st.1) as [L'|]; [|done]. cbn [andb]. destruct (Rlt_dec (D v) st.1) as [K|K]; [|specialize (E2 ltac:(lra)); lra]. rewrite (E1 K). destruct (rleb_spec (D v) 0); [|lra]. cbn [andb].
      destruct S2 as [S2|S2]; [by rewrite bool_decide_eq_true_2|]. unfold rgtb. destruct (rltb_spec 0 (ndot v)); [|lra]. by rewrite orb_true_r.
    + destruct (rltb_spec (dti v st.1) st.1) as [L'|]; [|done]. cbn [andb]. destruct (Rlt_dec (D v) st.1) as [K|K]; [|specialize (E2 ltac:(lra)); lra]. rewrite (E1 K). destruct (rleb_spec (D v) 0); [|done]. cbn [andb].
      rewrite bool_decide_eq_false_2 by (intros Q; apply S, Hs; auto). unfold rgtb. destruct (rltb_spec 0 (ndot v)); [exfalso; apply S, Hs; auto|done].
Qed.
