(** Proofs about location voxels. *)
From stdpp Require Import gmap list list_numbers option.
From Coq Require Import Reals ZArith NArith Lia Lra.
From Verif Require Import Real3 AABBModel AABBSpec AABBProofs VoxelModel VoxelSpec VoxelProofs.

(** ** Distribution over tasks *)
Lemma chunk_one s m i : (1 ≤ m)%nat → (i < s)%nat →
  ∃ t, (t < m)%nat ∧ ∀ t', (t' < m)%nat → (((chunk s m t').1 ≤ i < (chunk s m t').2)%nat ↔ t' = t).
Proof.
  intros Hm Hi. set (q := (s / m)%nat). pose proof (Nat.div_mod_eq s m) as E. fold q in E. pose proof (Nat.mod_upper_bound s m) as Hr.
  set (r := (s mod m)%nat) in *.
  assert (∀ t', chunk s m t' = ((t' * q)%nat, ((t' + 1) * q + (if (t' =? m - 1)%nat then r else 0))%nat)) as Ec by done.
  destruct (decide (i < (m - 1) * q)%nat) as [Hs|Hs].
  - assert (q ≠ 0)%nat as Hq by lia. pose proof (Nat.div_mod_eq i q) as Ei. pose proof (Nat.mod_upper_bound i q Hq) as Hiq.
    set (t := (i / q)%nat) in *. exists t. assert (t < m - 1)%nat as Ht by nia. split; [lia|]. intros t' Ht'. rewrite Ec. cbn [fst snd].
    destruct (Nat.eqb_spec t' (m - 1)); split; intros; [nia|nia|nia|]. subst t'. nia.
  - exists (m - 1)%nat. split; [lia|]. intros t' Ht'. rewrite Ec. cbn [fst snd].
    destruct (Nat.eqb_spec t' (m - 1)) as [-> |Hne]; split; intros; [done|nia| |done]. exfalso. assert ((t' + 1) * q ≤ (m - 1) * q)%nat by (apply Nat.mul_le_mono_r; lia). lia.
Qed.
Lemma bind_one {A} (l : list nat) (f : nat → bool) (c : list A) t : NoDup l → t ∈ l → (∀ t', t' ∈ l → f t' = true ↔ t' = t) →
  (l ≫= λ t', if f t' then c else []) = c.
Proof.
  intros Hn. induction Hn as [|x l Hx Hn IH]; intros Ht Hf; [by apply elem_of_nil in Ht|]. cbn.
  assert (t ∉ l → (l ≫= λ t', if f t' then c else []) = []) as Hnil.
  { intros Htl. clear - Htl Hf. induction l as [|y l IH]; [done|]. apply not_elem_of_cons in Htl as [H1 H2]. cbn.
    destruct (f y) eqn:E; [apply Hf in E; [congruence|by right; left]|]. apply IH; [|done].
    intros t' [->|Ht']%elem_of_cons; apply Hf; [by left|by right; right]. }
  destruct (f x) eqn:E.
  - apply Hf in E; [|by left]. subst x. by rewrite Hnil, app_nil_r.
  - cbn. apply elem_of_cons in Ht as [->|Ht]; [by rewrite (proj2 (Hf x (elem_of_list_here _ _))) in E|].
    apply IH; [done|]. intros t' Ht'. apply Hf. by right.
Qed.
Lemma collect_ok {A} s m (cand : nat → list A) i : (1 ≤ m)%nat → (i < s)%nat → collect s m cand i = cand i.
Proof.
  intros Hm Hi. destruct (chunk_one s m i Hm Hi) as (t & Ht & H). unfold collect.
  apply (bind_one _ (λ t', (((chunk s m t').1 <=? i) && (i <? (chunk s m t').2))%nat) _ t); [apply NoDup_seq|apply elem_of_seq; lia|].
  intros t' Ht'%elem_of_seq. rewrite <- H by lia. rewrite andb_true_iff, Nat.leb_le, Nat.ltb_lt. done.
Qed.
Lemma chunk_range s m t : (t < m)%nat → ((chunk s m t).2 ≤ s)%nat.
Proof.
  intros H. unfold chunk. cbn [snd]. pose proof (Nat.div_mod_eq s m). destruct (Nat.eqb_spec t (m - 1)) as [-> |Hne].
  - replace (m - 1 + 1)%nat with m by lia. lia.
  - assert ((t + 1) * (s / m) ≤ m * (s / m))%nat by (apply Nat.mul_le_mono_r; lia). lia.
Qed.

(** ** Filling key by key *)
Section Keys.
Context {P : Type}.
Definition by_key (a n : nat) (f : nat → list P) : list (Z * P) := i ← seq a n; c ← f i; [(Z.of_nat i, c)].
Lemma by_key_S a n f : by_key a (S n) f = ((Z.of_nat a,.) <$> f a) ++ by_key (S a) n f.
Proof. unfold by_key. cbn [seq]. rewrite bind_cons. f_equal. Qed.
Lemma by_key_ge a n f e : e ∈ by_key a n f → (Z.of_nat a ≤ e.1 < Z.of_nat (a + n))%Z.
Proof.
  unfold by_key. intros (i & H & Hi)%elem_of_list_bind. apply elem_of_list_bind in H as (c & H & _). apply elem_of_list_singleton in H as ->.
  apply elem_of_seq in Hi. cbn. lia.
Qed.
Lemma by_key_nondecr a n f : nondecr (by_key a n f).
Proof.
  revert a. induction n as [|n IH]; intros a; [by intros i j ? ? _ ?|]. rewrite by_key_S. apply nondecr_app; [|apply IH|].
  - intros i j x y _ Hx Hy. rewrite list_lookup_fmap in Hx, Hy. apply fmap_Some in Hx as (? & _ & ->), Hy as (? & _ & ->). done.
  - intros x y Hx Hy. apply elem_of_list_fmap in Hx as (? & -> & _). apply by_key_ge in Hy. cbn. lia.
Qed.
Lemma recorded_app k (h h' : list (Z * P)) : recorded k (h ++ h') = recorded k h ++ recorded k h'.
Proof. unfold recorded. by rewrite stdpp.list.filter_app, fmap_app. Qed.
Lemma by_key_recorded a n f i : (a ≤ i < a + n)%nat → recorded (Z.of_nat i) (by_key a n f) = f i.
Proof.
  revert a. induction n as [|n IH]; intros a H; [lia|]. rewrite by_key_S, recorded_app.
  destruct (decide (i = a)) as [-> |Hne].
  - assert (recorded (Z.of_nat a) (by_key (S a) n f) = []) as ->.
    { destruct (recorded _ _) as [|x l] eqn:E; [done|]. assert (x ∈ recorded (Z.of_nat a) (by_key (S a) n f)) as Hx by (rewrite E; by left).
      apply elem_of_recorded, by_key_ge in Hx. cbn in Hx. lia. }
    rewrite app_nil_r. unfold recorded. clear IH. induction (f a) as [|x l IHl]; [done|]. cbn [fmap list_fmap].
    rewrite stdpp.list.filter_cons, decide_True by done. cbn [fmap list_fmap snd]. f_equal. apply IHl.
  - assert (recorded (Z.of_nat i) ((Z.of_nat a,.) <$> f a) = []) as ->.
    { destruct (recorded _ _) as [|x l] eqn:E; [done|]. assert (x ∈ recorded (Z.of_nat i) ((Z.of_nat a,.) <$> f a)) as Hx by (rewrite E; by left).
      apply elem_of_recorded, elem_of_list_fmap in Hx as (? & [= Ex _] & _). lia. }
    apply IH. lia.
Qed.
Lemma fill_by_key n f : ∃ s, vm_add_all (vm_new : vmap P) (by_key 0 n f) = Some s ∧ ∀ i, (i < n)%nat → vm_get s (Z.of_nat i) = f i.
Proof.
  destruct (fill_ok (vm_new : vmap P) (by_key 0 n f)) as (s & E & G & _ & _); [done|done| |].
  { intros e r He. assert (e ∈ by_key 0 n f) as Hin by (rewrite He; by left). apply by_key_ge in Hin. cbn. lia. }
  exists s. split; [done|]. intros i Hi. rewrite G, last_run_recorded by apply nondecr_grouped, by_key_nondecr. apply by_key_recorded. lia.
Qed.
End Keys.

(** ** Voxels with exact arithmetic *)
Lemma extent_exact g c : grid_ok g → in_grid g c → ∃ e, extent rid g (cell_number g c) = Some e ∧
  (vx (bmin e) = vx (g_lo g) + IZR c.1.1 * vx (g_delta g) ∧ vy (bmin e) = vy (g_lo g) + IZR c.1.2 * vy (g_delta g) ∧ vz (bmin e) = vz (g_lo g) + IZR c.2 * vz (g_delta g) ∧
   vx (bmax e) = vx (g_lo g) + IZR (c.1.1 + 1) * vx (g_delta g) ∧ vy (bmax e) = vy (g_lo g) + IZR (c.1.2 + 1) * vy (g_delta g) ∧
   vz (bmax e) = vz (g_lo g) + IZR (c.2 + 1) * vz (g_delta g))%R.
Proof.
  intros Hg Hc. unfold extent. rewrite key_to_cell_ok by done. destruct c as [[kx ky] kz]. cbn [mbind option_bind]. eexists. split; [done|].
  unfold rid. cbn. rewrite !plus_IZR. repeat split; ring.
Qed.
Definition grid_box (g : grid) (p : v3) : Prop :=
  (vx (g_lo g) <= vx p < vx (g_lo g) + IZR (g_nx g) * vx (g_delta g) ∧ vy (g_lo g) <= vy p < vy (g_lo g) + IZR (g_ny g) * vy (g_delta g) ∧
   vz (g_lo g) <= vz p < vz (g_lo g) + IZR (g_nz g) * vz (g_delta g))%R.
Definition grid_inv (g : grid) : Prop :=
  (0 < vx (g_delta g) ∧ 0 < vy (g_delta g) ∧ 0 < vz (g_delta g))%R ∧
  (vx (g_inv g) = 1 / vx (g_delta g) ∧ vy (g_inv g) = 1 / vy (g_delta g) ∧ vz (g_inv g) = 1 / vz (g_delta g))%R.
Lemma cells_exact g p : grid_ok g → grid_inv g → grid_box g p → ∃ c, cells rid g p = Some c ∧ in_grid g c ∧
  (vx (g_lo g) + IZR c.1.1 * vx (g_delta g) <= vx p < vx (g_lo g) + IZR (c.1.1 + 1) * vx (g_delta g) ∧
   vy (g_lo g) + IZR c.1.2 * vy (g_delta g) <= vy p < vy (g_lo g) + IZR (c.1.2 + 1) * vy (g_delta g) ∧
   vz (g_lo g) + IZR c.2 * vz (g_delta g) <= vz p < vz (g_lo g) + IZR (c.2 + 1) * vz (g_delta g))%R.
Proof.
  intros (Hx & Hy & Hz & Hm) ((Dx & Dy & Dz) & (Ix & Iy & Iz)) (Bx & By & Bz).
  assert (g_nx g ≤ g_nx g * (g_ny g * g_nz g))%Z by (assert (1 ≤ g_ny g * g_nz g)%Z by nia; nia).
  assert (g_ny g ≤ g_ny g * (g_nx g * g_nz g))%Z by (assert (1 ≤ g_nx g * g_nz g)%Z by nia; nia).
  assert (g_nz g ≤ g_nz g * (g_nx g * g_ny g))%Z by (assert (1 ≤ g_nx g * g_ny g)%Z by nia; nia).
  destruct (cell1_exact (vx p) (vx (g_lo g)) (vx (g_delta g)) (g_nx g)) as (kx & Ex & Kx & Rx); [done|done|lia|].
  destruct (cell1_exact (vy p) (vy (g_lo g)) (vy (g_delta g)) (g_ny g)) as (ky & Ey & Ky & Ry); [done|done|lia|].
  destruct (cell1_exact (vz p) (vz (g_lo g)) (vz (g_delta g)) (g_nz g)) as (kz & Ez & Kz & Rz); [done|done|lia|].
  exists (kx, ky, kz). unfold cells. rewrite Ix, Iy, Iz, Ex, Ey, Ez. cbn. done.
Qed.
Lemma mk_grid_inv lower len nx ny nz : (0 < nx)%Z → (0 < ny)%Z → (0 < nz)%Z → (0 < vx len ∧ 0 < vy len ∧ 0 < vz len)%R → grid_inv (mk_grid rid lower len nx ny nz).
Proof.
  intros Hx Hy Hz (Lx & Ly & Lz). apply IZR_lt in Hx, Hy, Hz. unfold grid_inv, mk_grid, rid. cbn. repeat split; try (apply Rdiv_lt_0_compat; lra).
Qed.

(** ** Location *)
Lemma ab_contains_iff b p : ab_contains b p = true ↔ strictly_in b p.
Proof.
  unfold ab_contains, strictly_in. rewrite !andb_true_iff.
  destruct (rltb_spec (vx (bmin b)) (vx p)), (rgtb_spec (vx (bmax b)) (vx p)), (rltb_spec (vy (bmin b)) (vy p)), (rgtb_spec (vy (bmax b)) (vy p)),
    (rltb_spec (vz (bmin b)) (vz p)), (rgtb_spec (vz (bmax b)) (vz p)); split; intros; try (exfalso; lra); try naive_solver; repeat split; lra.
Qed.
Lemma scan_first boxes dau p accept cs : length dau = length boxes →
  (∀ i j a b, (i < j)%nat → cs !! i = Some a → cs !! j = Some b → (a < b)%nat) → (∀ i, i ∈ cs → (i < length boxes)%nat) →
  (∀ i v q, eligible boxes dau p accept i v q → i ∈ cs) →
  ∃ r, scan_cands boxes dau p accept cs = Some r ∧ first_eligible boxes dau p accept r.
Proof.
  intros Hl Hs Hb He.
  assert (∀ cs0, (∀ i j a b, (i < j)%nat → cs0 !! i = Some a → cs0 !! j = Some b → (a < b)%nat) → (∀ i, i ∈ cs0 → (i < length boxes)%nat) →
    ∃ r, scan_cands boxes dau p accept cs0 = Some r ∧
      match r with None => ∀ i v q, i ∈ cs0 → ¬ eligible boxes dau p accept i v q
      | Some (v, q) => ∃ i, i ∈ cs0 ∧ eligible boxes dau p accept i v q ∧ ∀ j v' q', j ∈ cs0 → (j < i)%nat → ¬ eligible boxes dau p accept j v' q' end) as G.
  { clear Hs Hb He. induction cs0 as [|i r IH]; intros Hs Hb.
    - exists None. split; [done|]. intros i v q H. by apply elem_of_nil in H.
    - assert (i < length boxes)%nat as Hi by (apply Hb; by left). destruct (lookup_lt_is_Some_2 boxes i Hi) as [b Eb].
      destruct (lookup_lt_is_Some_2 dau i ltac:(lia)) as [v Ev]. cbn [scan_cands]. rewrite Ev, Eb. cbn [mbind option_bind].
      destruct IH as (r' & Er & Hr').
      { intros x y a b' Hxy Ha Hb'. by apply (Hs (S x) (S y)); [lia|..]. }
      { intros j Hj. apply Hb. by right. }
      assert (∀ j, j ∈ r → (i < j)%nat) as Hir.
      { intros j Hj. apply elem_of_list_lookup in Hj as [x Hx]. apply (Hs 0%nat (S x)); [lia|done|done]. }
      assert ((∀ v' q', ¬ eligible boxes dau p accept i v' q') → ∃ r0, scan_cands boxes dau p accept r = Some r0 ∧
        match r0 with None => ∀ i' v q, i' ∈ i :: r → ¬ eligible boxes dau p accept i' v q
        | Some (v, q) => ∃ i', i' ∈ i :: r ∧ eligible boxes dau p accept i' v q ∧ ∀ j v' q', j ∈ i :: r → (j < i')%nat → ¬ eligible boxes dau p accept j v' q' end) as Hskip.
      { intros Hn. exists r'. split; [done|]. destruct r' as [[v0 q0]|].
        - destruct Hr' as (i' & H1 & H2 & H3). exists i'. split; [by right|]. split; [done|].
          intros j v' q' [->|Hj]%elem_of_cons Hlt; [apply Hn|by apply H3].
        - intros i' v' q' [->|Hj]%elem_of_cons; [apply Hn|by apply Hr']. }
      destruct (ab_contains b p) eqn:Ec; [destruct (accept v) as [q|] eqn:Ea|].
      + exists (Some (v, q)). split; [done|]. exists i. split; [by left|]. split.
        * exists b. apply ab_contains_iff in Ec. done.
        * intros j v' q' [->|Hj]%elem_of_cons Hlt; [lia|]. apply Hir in Hj. lia.
      + apply Hskip. intros v' q' (b' & H1 & H2 & H3 & H4). congruence.
      + apply Hskip. intros v' q' (b' & H1 & H2 & H3 & H4). rewrite Eb in H1. injection H1 as <-. apply ab_contains_iff in H2. congruence. }
  destruct (G cs Hs Hb) as (r & Er & Hr). exists r. split; [done|]. destruct r as [[v q]|].
  - destruct Hr as (i & H1 & H2 & H3). exists i. split; [done|]. intros j v' q' Hlt Hel. apply (H3 j v' q' (He _ _ _ Hel) Hlt Hel).
  - intros i v q Hel. apply (Hr i v q (He _ _ _ Hel) Hel).
Qed.
Lemma sorted_filter_fst {A} (Q : nat * A → Prop) `{∀ x, Decision (Q x)} (l : list A) i j a b :
  (i < j)%nat → (fst <$> filter Q (imap pair l)) !! i = Some a → (fst <$> filter Q (imap pair l)) !! j = Some b → (a < b)%nat.
Proof.
  intros Hij. assert (∀ (f : nat → nat) (l : list A), (∀ x y, (x < y)%nat → (f x < f y)%nat) →
    (∀ i a, (fst <$> filter Q (imap (λ i x, (f i, x)) l)) !! i = Some a → (f 0 ≤ a)%nat) ∧
    ∀ i j a b, (i < j)%nat → (fst <$> filter Q (imap (λ i x, (f i, x)) l)) !! i = Some a → (fst <$> filter Q (imap (λ i x, (f i, x)) l)) !! j = Some b → (a < b)%nat) as G.
  { clear. intros f l. revert f. induction l as [|x l IH]; intros f Hf; [by split; [intros i a|intros i j a b _]; cbn|].
    destruct (IH (λ i, f (S i))) as [IH1 IH2]; [intros; apply Hf; lia|]. cbn [imap].
    change (imap ((λ (i : nat) (x0 : A), (f i, x0)) ∘ S) l) with (imap (λ i x, (f (S i), x)) l).
    rewrite stdpp.list.filter_cons. pose proof (Hf 0 1 ltac:(lia))%nat. destruct (decide (Q (f 0%nat, x))).
    - cbn [fmap list_fmap fst]. split.
      + intros [|i] a Ha; cbn in Ha; [injection Ha as <-; lia|]. apply IH1 in Ha. lia.
      + intros [|i] [|j] a b Hij Ha Hb; [lia| |lia|]; cbn in Ha, Hb.
        * injection Ha as <-. apply IH1 in Hb. lia.
        * eapply (IH2 i j); [lia|done..].
    - split; [intros i a Ha; apply IH1 in Ha; lia|apply IH2]. }
  apply (proj2 (G (λ x, x) l ltac:(done)) i j a b Hij).
Qed.
Lemma boxes_meet_in e b p : in_box e p → in_box b p → boxes_meet e b = true.
Proof.
  intros ((?&?)&(?&?)&(?&?)) ((?&?)&(?&?)&(?&?)). unfold boxes_meet.
  destruct (rltb_spec (vx (bmax e)) (vx (bmin b))); [lra|]. destruct (rgtb_spec (vx (bmin e)) (vx (bmax b))); [lra|].
  destruct (rltb_spec (vy (bmax e)) (vy (bmin b))); [lra|]. destruct (rgtb_spec (vy (bmin e)) (vy (bmax b))); [lra|].
  destruct (rltb_spec (vz (bmax e)) (vz (bmin b))); [lra|]. destruct (rgtb_spec (vz (bmin e)) (vz (bmax b))); [lra|]. done.
Qed.
Theorem voxel_locate_ok m lower upper boxes dau p accept : (1 ≤ m)%nat → length dau = length boxes →
  (vx lower < vx upper ∧ vy lower < vy upper ∧ vz lower < vz upper)%R → in_box (Box lower upper) p →
  ∃ gs, build_locate rid m lower upper boxes = Some gs ∧
  ∃ r, voxel_locate rid gs boxes dau p accept = Some r ∧ first_eligible boxes dau p accept r.
Proof.
  intros Hm Hl (Lx & Ly & Lz) Hp. unfold build_locate. set (g := mk_grid rid lower (vscale (1005 / 1000) (vsub upper lower)) 10 10 10).
  assert (grid_ok g) as Hg by (unfold grid_ok; cbn; lia).
  assert (grid_inv g) as Hgi by (apply mk_grid_inv; [lia..|]; cbn; lra).
  assert (grid_box g p) as Hgb by (destruct Hp as ((?&?)&(?&?)&(?&?)); unfold grid_box, g, mk_grid, rid; cbn in *; repeat split; lra).
  assert ((g_nx g * g_ny g * g_nz g)%Z = Z.of_nat 1000) as HN by done.
  remember 1000%nat as n eqn:En. 
  assert (∀ i, (i < n)%nat → ∃ e, extent rid g (Z.of_nat i) = Some e) as Hext.
  { intros i Hi. destruct (cell_number_surj g (Z.of_nat i)) as (c & Hc & <-); [done|lia|].
    destruct (extent_exact g c Hg Hc) as (e & Ee & _). eauto. }
  set (C := λ i, default [] (voxel_cands rid g boxes (Z.of_nat i))).
  assert (mapM (λ i, voxel_cands rid g boxes (Z.of_nat i)) (seq 0 n) = Some (C <$> seq 0 n)) as Em.
  { apply mapM_Some_fmap. intros i Hi%elem_of_seq. destruct (Hext i) as [e Ee]; [lia|]. unfold C, voxel_cands. rewrite Ee. done. }
  rewrite Em. cbn [mbind option_bind].
  destruct (fill_by_key n (collect n m (λ i, default [] ((C <$> seq 0 n) !! i)))) as (s & Es & Gs).
  change (i ← seq 0 n; c ← collect n m (λ i0, default [] ((C <$> seq 0 n) !! i0)) i; [(Z.of_nat i, c)])
    with (by_key 0 n (collect n m (λ i, default [] ((C <$> seq 0 n) !! i)))).
  rewrite Es. cbn [mbind option_bind]. eexists. split; [done|]. unfold voxel_locate. cbn [fst snd].
  destruct (cells_exact g p Hg Hgi Hgb) as (c & Ec & Hc & (Cx & Cy & Cz)). unfold get_key. rewrite Ec. cbn [mbind option_bind].
  rewrite key_of_ok by done. cbn [mbind option_bind]. pose proof (cell_number_bound g c Hg Hc) as Hcb. rewrite HN in Hcb.
  assert (cell_number g c = Z.of_nat (Z.to_nat (cell_number g c))) as EN by lia.
  assert (Z.to_nat (cell_number g c) < n)%nat as Hlt by lia.
  destruct (extent_exact g c Hg Hc) as (e & Ee & E1 & E2 & E3 & E4 & E5 & E6).
  assert (vm_get s (cell_number g c) = fst <$> filter (λ ib, boxes_meet e ib.2 = true) (imap pair boxes)) as ->.
  { rewrite EN, Gs by done. rewrite collect_ok by done. rewrite list_lookup_fmap, lookup_seq_lt by done. cbn [fmap option_fmap option_map default].
    unfold C. cbn [Nat.add]. rewrite <- EN. unfold voxel_cands. rewrite Ee. done. }
  apply scan_first; [done|by apply sorted_filter_fst| |].
  - intros i Hi. apply elem_of_list_fmap in Hi as ([j b] & -> & Hi). apply elem_of_list_filter in Hi as [_ Hi]. apply elem_of_imap_pair in Hi.
    by apply lookup_lt_Some in Hi.
  - intros i v q (b & H1 & H2 & _). apply elem_of_list_fmap. exists (i, b). split; [done|]. apply elem_of_list_filter.
    split; [|by apply elem_of_imap_pair]. cbn. apply (boxes_meet_in e b p).
    + unfold in_box. rewrite E1, E2, E3, E4, E5, E6. repeat split; lra.
    + destruct H2 as (?&?&?). unfold in_box. repeat split; lra.
Qed.
Theorem voxel_locate_zero_tasks lower upper boxes p dau accept : (vx lower < vx upper ∧ vy lower < vy upper ∧ vz lower < vz upper)%R → in_box (Box lower upper) p →
  ∃ gs, build_locate rid 0 lower upper boxes = Some gs ∧ voxel_locate rid gs boxes dau p accept = Some None.
Proof.
  intros (Lx & Ly & Lz) Hp. unfold build_locate. set (g := mk_grid rid lower (vscale (1005 / 1000) (vsub upper lower)) 10 10 10).
  assert (grid_ok g) as Hg by (unfold grid_ok; cbn; lia).
  assert (grid_inv g) as Hgi by (apply mk_grid_inv; [lia..|]; cbn; lra).
  assert (grid_box g p) as Hgb by (destruct Hp as ((?&?)&(?&?)&(?&?)); unfold grid_box, g, mk_grid, rid; cbn in *; repeat split; lra).
  assert ((g_nx g * g_ny g * g_nz g)%Z = Z.of_nat 1000) as HN by done.
  remember 1000%nat as n eqn:En. 
  assert (∀ i, (i < n)%nat → ∃ e, extent rid g (Z.of_nat i) = Some e) as Hext.
  { intros i Hi. destruct (cell_number_surj g (Z.of_nat i)) as (c & Hc & <-); [done|lia|].
    destruct (extent_exact g c Hg Hc) as (e & Ee & _). eauto. }
  set (C := λ i, default [] (voxel_cands rid g boxes (Z.of_nat i))).
  assert (mapM (λ i, voxel_cands rid g boxes (Z.of_nat i)) (seq 0 n) = Some (C <$> seq 0 n)) as Em.
  { apply mapM_Some_fmap. intros i Hi%elem_of_seq. destruct (Hext i) as [e Ee]; [lia|]. unfold C, voxel_cands. rewrite Ee. done. }
  rewrite Em. cbn [mbind option_bind].
  destruct (fill_by_key n (λ _ : nat, [] : list nat)) as (s & Es & Gs).
  change (i ← seq 0 n; c ← collect n 0 (λ i0, default [] ((C <$> seq 0 n) !! i0)) i; [(Z.of_nat i, c)]) with (by_key 0 n (λ _ : nat, [] : list nat)).
  rewrite Es. cbn [mbind option_bind]. eexists. split; [done|]. unfold voxel_locate. cbn [fst snd].
  destruct (cells_exact g p Hg Hgi Hgb) as (c & Ec & Hc & _). unfold get_key. rewrite Ec. cbn [mbind option_bind].
  rewrite key_of_ok by done. cbn [mbind option_bind]. pose proof (cell_number_bound g c Hg Hc) as Hcb. rewrite HN in Hcb.
  replace (cell_number g c) with (Z.of_nat (Z.to_nat (cell_number g c))) by lia. rewrite Gs by lia. done.
Qed.
