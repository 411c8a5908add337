(** Proofs about the voxel map. *)
From stdpp Require Import gmap list list_numbers option.
From Coq Require Import Reals ZArith NArith Lia Lra.
From Verif Require Import Real3 AABBModel AABBSpec AABBProofs VoxelModel VoxelSpec.

(** ** Keys *)
Lemma to_int_Some z : (- 2 ^ 31 ≤ z < 2 ^ 31)%Z → to_int z = Some z.
Proof. intros H. unfold to_int, int_ok. destruct (Z.leb_spec (- 2 ^ 31) z); [|lia]. destruct (Z.ltb_spec z (2 ^ 31)); [|lia]. done. Qed.
Lemma to_int_inv z y : to_int z = Some y → y = z.
Proof. unfold to_int. destruct (int_ok z); [by intros [= ->]|done]. Qed.
Lemma cell_number_bound g c : grid_ok g → in_grid g c → (0 ≤ cell_number g c < g_nx g * g_ny g * g_nz g)%Z.
Proof.
  destruct c as [[kx ky] kz]. intros (Hx & Hy & Hz & _) (Ix & Iy & Iz). unfold cell_number. cbn [fst snd] in *.
  assert (0 ≤ g_nx g * ky ≤ g_nx g * (g_ny g - 1))%Z by (split; [apply Z.mul_nonneg_nonneg; lia|apply Z.mul_le_mono_nonneg_l; lia]).
  assert (0 < g_nx g * g_ny g)%Z by (apply Z.mul_pos_pos; lia).
  assert (0 ≤ g_nx g * g_ny g * kz ≤ g_nx g * g_ny g * (g_nz g - 1))%Z by (split; [apply Z.mul_nonneg_nonneg; lia|apply Z.mul_le_mono_nonneg_l; lia]).
  lia.
Qed.
Lemma key_of_ok g c : grid_ok g → in_grid g c → key_of g c = Some (cell_number g c).
Proof.
  intros Hg Hc. pose proof (cell_number_bound g c Hg Hc) as Hb. destruct c as [[kx ky] kz]. unfold cell_number in *.
  destruct Hg as (Hx & Hy & Hz & Hm), Hc as (Ix & Iy & Iz). cbn [fst snd] in *. unfold key_of.
  assert (0 ≤ kz * g_ny g)%Z by (apply Z.mul_nonneg_nonneg; lia).
  assert (ky + kz * g_ny g ≤ g_nx g * (ky + kz * g_ny g))%Z by nia.
  assert (g_nx g * (ky + kz * g_ny g) = g_nx g * ky + g_nx g * g_ny g * kz)%Z as E by ring.
  rewrite (to_int_Some (kz * g_ny g)) by lia. cbn [mbind option_bind].
  rewrite (to_int_Some (ky + kz * g_ny g)) by lia. cbn [mbind option_bind].
  rewrite (to_int_Some (g_nx g * _)) by lia. cbn [mbind option_bind]. rewrite to_int_Some by lia. f_equal. lia.
Qed.
Lemma key_to_cell_ok g c : grid_ok g → in_grid g c → key_to_cell g (cell_number g c) = Some c.
Proof.
  intros Hg Hc. pose proof (cell_number_bound g c Hg Hc) as Hb. destruct c as [[kx ky] kz].
  destruct Hg as (Hx & Hy & Hz & Hm), Hc as (Ix & Iy & Iz). unfold key_to_cell. cbn [fst snd] in *.
  assert (0 < g_nx g * g_ny g)%Z as Hn by (apply Z.mul_pos_pos; lia).
  assert (g_nx g * g_ny g * 1 ≤ g_nx g * g_ny g * g_nz g)%Z by (apply Z.mul_le_mono_nonneg_l; lia).
  rewrite to_int_Some by lia. cbn [mbind option_bind]. destruct (Z.eqb_spec (g_nx g * g_ny g) 0); [lia|]. destruct (Z.eqb_spec (g_nx g) 0); [lia|].
  cbn [orb]. assert (0 ≤ g_nx g * ky ≤ g_nx g * (g_ny g - 1))%Z by (split; [apply Z.mul_nonneg_nonneg; lia|apply Z.mul_le_mono_nonneg_l; lia]).
  assert (Z.quot (cell_number g (kx, ky, kz)) (g_nx g * g_ny g) = kz) as ->.
  { rewrite Z.quot_div_nonneg by lia. symmetry. apply (Z.div_unique_pos _ _ kz (kx + g_nx g * ky)); [lia|]. unfold cell_number. cbn. ring. }
  assert (Z.quot (cell_number g (kx, ky, kz) - kz * g_nx g * g_ny g) (g_nx g) = ky) as ->.
  { assert (cell_number g (kx, ky, kz) - kz * g_nx g * g_ny g = kx + g_nx g * ky)%Z as -> by (unfold cell_number; cbn; ring).
    rewrite Z.quot_div_nonneg by lia. symmetry. apply (Z.div_unique_pos _ _ ky kx); [lia|]. ring. }
  do 3 f_equal. unfold cell_number. cbn. ring.
Qed.
Lemma cell_number_inj g c c' : grid_ok g → in_grid g c → in_grid g c' → cell_number g c = cell_number g c' → c = c'.
Proof. intros Hg H H' E. pose proof (key_to_cell_ok g c Hg H) as K. rewrite E, key_to_cell_ok in K by done. by injection K. Qed.
Lemma cell_number_surj g k : grid_ok g → (0 ≤ k < g_nx g * g_ny g * g_nz g)%Z → ∃ c, in_grid g c ∧ cell_number g c = k.
Proof.
  intros (Hx & Hy & Hz & _) Hk. assert (0 < g_nx g * g_ny g)%Z as Hn by (apply Z.mul_pos_pos; lia).
  exists ((k mod (g_nx g * g_ny g)) mod g_nx g, (k mod (g_nx g * g_ny g)) / g_nx g, k / (g_nx g * g_ny g))%Z.
  pose proof (Z.mod_pos_bound k _ Hn) as H1. pose proof (Z.mod_pos_bound (k mod (g_nx g * g_ny g)) (g_nx g) Hx) as H2.
  split.
  - unfold in_grid. cbn [fst snd]. split; [done|]. split; split.
    + apply Z.div_pos; lia.
    + apply Z.div_lt_upper_bound; lia.
    + apply Z.div_pos; lia.
    + apply Z.div_lt_upper_bound; lia.
  - unfold cell_number. cbn [fst snd]. pose proof (Z.div_mod k (g_nx g * g_ny g)). pose proof (Z.div_mod (k mod (g_nx g * g_ny g)) (g_nx g)). lia.
Qed.

(** ** Points and cells *)
Lemma Int_part_bound x : (IZR (Int_part x) <= x < IZR (Int_part x) + 1)%R.
Proof. destruct (base_Int_part x). lra. Qed.
Lemma Int_part_unique x z : (IZR z <= x < IZR z + 1)%R → Int_part x = z.
Proof.
  intros H. pose proof (Int_part_bound x). assert (IZR (Int_part x) < IZR (z + 1))%R by (rewrite plus_IZR; lra).
  assert (IZR z < IZR (Int_part x + 1))%R by (rewrite plus_IZR; lra). apply lt_IZR in H1, H2. lia.
Qed.
Lemma Int_part_mono x y : (x <= y)%R → (Int_part x ≤ Int_part y)%Z.
Proof.
  intros H. pose proof (Int_part_bound x). pose proof (Int_part_bound y).
  assert (IZR (Int_part x) < IZR (Int_part y + 1))%R as K by (rewrite plus_IZR; lra). apply lt_IZR in K. lia.
Qed.
Lemma rtrunc_mono x y : (x <= y)%R → (rtrunc x ≤ rtrunc y)%Z.
Proof.
  intros H. unfold rtrunc. destruct (rleb_spec 0 x) as [Hx|Hx], (rleb_spec 0 y) as [Hy|Hy].
  - by apply Int_part_mono.
  - lra.
  - assert (0 ≤ Int_part y)%Z by (pose proof (Int_part_mono 0 y Hy) as K; rewrite (Int_part_unique 0 0) in K by lra; done).
    assert (0 ≤ Int_part (- x))%Z by (pose proof (Int_part_mono 0 (- x)) as K; rewrite (Int_part_unique 0 0) in K by lra; apply K; lra). lia.
  - pose proof (Int_part_mono (- y) (- x)) as K. assert (Int_part (- y) ≤ Int_part (- x))%Z by (apply K; lra). lia.
Qed.
Lemma rtrunc_in x k : (0 ≤ k)%Z → (IZR k <= x < IZR k + 1)%R → rtrunc x = k.
Proof.
  intros Hk H. unfold rtrunc. apply IZR_le in Hk. destruct (rleb_spec 0 x); [|lra]. by apply Int_part_unique.
Qed.
Lemma rtrunc_nonneg x : (0 <= x)%R → (IZR (rtrunc x) <= x < IZR (rtrunc x) + 1)%R ∧ (0 ≤ rtrunc x)%Z.
Proof.
  intros H. unfold rtrunc. destruct (rleb_spec 0 x); [|lra]. split; [apply Int_part_bound|].
  pose proof (Int_part_mono 0 x H) as K. by rewrite (Int_part_unique 0 0) in K by lra.
Qed.
Definition rid (x : R) : R := x.
Lemma cell1_exact x lo d n : (0 < d)%R → (lo <= x < lo + IZR n * d)%R → (n < 2 ^ 31)%Z →
  ∃ k, cell1 rid x lo (1 / d) = Some k ∧ (0 ≤ k < n)%Z ∧ (lo + IZR k * d <= x < lo + IZR (k + 1) * d)%R.
Proof.
  intros Hd H Hn. unfold cell1, rid. set (v := ((x - lo) * (1 / d))%R).
  assert (x - lo = v * d)%R as E by (unfold v; field; lra).
  assert (0 <= v)%R as Hv by (apply (Rmult_le_reg_r d); [done|]; rewrite <- E; lra).
  destruct (rtrunc_nonneg v Hv) as [Hb H0]. exists (rtrunc v).
  assert (IZR (rtrunc v) < IZR n)%R as Hlt.
  { apply Rle_lt_trans with v; [lra|]. apply (Rmult_lt_reg_r d); [done|]. rewrite <- E. lra. }
  apply lt_IZR in Hlt. rewrite to_int_Some by lia. split; [done|]. split; [lia|]. rewrite plus_IZR.
  assert (IZR (rtrunc v) * d <= v * d)%R by (apply Rmult_le_compat_r; lra).
  assert (v * d < (IZR (rtrunc v) + 1) * d)%R by (apply Rmult_lt_compat_r; lra). lra.
Qed.
Section Mono.
Variable rnd : R → R.
Hypothesis Hrnd : ∀ x y, (x <= y)%R → (rnd x <= rnd y)%R.
Lemma cell1_mono x y lo inv a b : (0 <= inv)%R → (x <= y)%R → cell1 rnd x lo inv = Some a → cell1 rnd y lo inv = Some b → (a ≤ b)%Z.
Proof.
  intros Hi H E1%to_int_inv E2%to_int_inv. subst. apply rtrunc_mono, Hrnd, Rmult_le_compat_r; [done|]. apply Hrnd.
  pose proof (Hrnd x y H). lra.
Qed.
Lemma cells_Some g p c : cells rnd g p = Some c →
  cell1 rnd (vx p) (vx (g_lo g)) (vx (g_inv g)) = Some c.1.1 ∧ cell1 rnd (vy p) (vy (g_lo g)) (vy (g_inv g)) = Some c.1.2 ∧
  cell1 rnd (vz p) (vz (g_lo g)) (vz (g_inv g)) = Some c.2.
Proof.
  unfold cells. destruct (cell1 rnd (vx p) _ _) as [kx|]; cbn [mbind option_bind]; [|done].
  destruct (cell1 rnd (vy p) _ _) as [ky|]; cbn [mbind option_bind]; [|done].
  destruct (cell1 rnd (vz p) _ _) as [kz|]; cbn [mbind option_bind]; [|done]. by intros [= <-].
Qed.
Lemma box_cells_in g b cs c : box_cells rnd g b = Some cs → c ∈ cs → in_grid g c.
Proof.
  unfold box_cells. destruct (cells rnd g (bmin b)) as [[[lx ly] lz]|]; cbn [mbind option_bind]; [|done].
  destruct (cells rnd g (bmax b)) as [[[ux uy] uz]|]; cbn [mbind option_bind]; [|done]. intros [= <-].
  intros (kx & H1 & Hx)%elem_of_list_bind. apply elem_of_list_bind in H1 as (ky & H1 & Hy). apply elem_of_list_bind in H1 as (kz & H1 & Hz).
  apply elem_of_list_singleton in H1 as ->. apply elem_of_seqZ in Hx, Hy, Hz. unfold in_grid. cbn. lia.
Qed.
Lemma box_cells_point g b cs p c : (0 <= vx (g_inv g) ∧ 0 <= vy (g_inv g) ∧ 0 <= vz (g_inv g))%R → in_box b p →
  box_cells rnd g b = Some cs → cells rnd g p = Some c → in_grid g c → c ∈ cs.
Proof.
  intros (Ix & Iy & Iz) ((?&?)&(?&?)&(?&?)) Hb Hc (Gx & Gy & Gz). unfold box_cells in Hb.
  destruct (cells rnd g (bmin b)) as [[[lx ly] lz]|] eqn:El; cbn [mbind option_bind] in Hb; [|done].
  destruct (cells rnd g (bmax b)) as [[[ux uy] uz]|] eqn:Eu; cbn [mbind option_bind] in Hb; [|done]. injection Hb as <-.
  apply cells_Some in El as (L1 & L2 & L3), Eu as (U1 & U2 & U3), Hc as (C1 & C2 & C3). destruct c as [[kx ky] kz]. cbn [fst snd] in *.
  assert (lx ≤ kx)%Z by (by eapply (cell1_mono _ _ _ _ _ _ Ix); [|exact L1|exact C1]).
  assert (kx ≤ ux)%Z by (by eapply (cell1_mono _ _ _ _ _ _ Ix); [|exact C1|exact U1]).
  assert (ly ≤ ky)%Z by (by eapply (cell1_mono _ _ _ _ _ _ Iy); [|exact L2|exact C2]).
  assert (ky ≤ uy)%Z by (by eapply (cell1_mono _ _ _ _ _ _ Iy); [|exact C2|exact U2]).
  assert (lz ≤ kz)%Z by (by eapply (cell1_mono _ _ _ _ _ _ Iz); [|exact L3|exact C3]).
  assert (kz ≤ uz)%Z by (by eapply (cell1_mono _ _ _ _ _ _ Iz); [|exact C3|exact U3]).
  apply elem_of_list_bind. exists kx. split; [|apply elem_of_seqZ; lia].
  apply elem_of_list_bind. exists ky. split; [|apply elem_of_seqZ; lia].
  apply elem_of_list_bind. exists kz. split; [|apply elem_of_seqZ; lia]. by apply elem_of_list_singleton.
Qed.
End Mono.

(** ** The map *)
Section Map.
Context {P : Type}.
Implicit Types (h : list (Z * P)) (s : vmap P).
Definition last_key h (d : Z) : Z := match rev h with e :: _ => e.1 | [] => d end.
Lemma last_run_snoc k h e d : last_run k (h ++ [e]) =
  if (e.1 =? k)%Z then (if (last_key h d =? k)%Z && negb (bool_decide (h = [])) then last_run k h ++ [e.2] else [e.2]) else last_run k h.
Proof.
  unfold last_run, last_key. rewrite rev_app_distr. cbn [rev app drop_while].
  destruct (Z.eqb_spec e.1 k) as [<-|He]; cbn [negb]; [|done].
  cbn [take_while]. rewrite Z.eqb_refl. cbn [rev]. rewrite fmap_app.
  destruct (rev h) as [|a r] eqn:Er.
  - assert (h = []) as -> by (rewrite <- (rev_involutive h), Er; done). rewrite (bool_decide_true (_ = _)) by done. cbn [negb]. by rewrite andb_false_r.
  - rewrite (bool_decide_false (h = [])) by (intros ->; done). cbn [negb]. rewrite andb_true_r.
    cbn [take_while drop_while]. destruct (Z.eqb_spec a.1 e.1) as [Ha|Ha]; cbn [negb take_while].
    + destruct (Z.eqb_spec a.1 e.1); done.
    + done.
Qed.
Definition map_inv h s (l0 : Z) : Prop :=
  v_props s = snd <$> h ∧ v_last s = last_key h l0 ∧
  ∀ k, match v_map s !! k with
       | None => last_run k h = [] ∧ (h ≠ [] → k ≠ last_key h l0)
       | Some (o, n) => (1 ≤ n)%nat ∧ (o + n ≤ length h)%nat ∧ take n (drop o (snd <$> h)) = last_run k h ∧
           (k = last_key h l0 → o + n = length h)%nat
       end ∧ (is_Some (v_map s !! k) ↔ k ∈ fst <$> h).
Lemma last_key_snoc h e d : last_key (h ++ [e]) d = e.1.
Proof. unfold last_key. rewrite rev_app_distr. done. Qed.
Lemma last_run_nil k h : k ∉ fst <$> h → last_run k h = [].
Proof.
  induction h as [|e h IH] using rev_ind; [done|]. rewrite fmap_app, not_elem_of_app. intros [H1 H2].
  rewrite (last_run_snoc _ _ _ 0). destruct (Z.eqb_spec e.1 k) as [<-|]; [|by apply IH]. exfalso. apply H2. cbn. by left.
Qed.
Lemma add_all_inv h s0 l0 : v_map s0 = ∅ → v_props s0 = [] → v_last s0 = l0 →
  (∀ e r, h = e :: r → e.1 ≠ l0) → ∃ s, vm_add_all s0 h = Some s ∧ map_inv h s l0.
Proof.
  intros Hm Hp Hl. induction h as [|e h IH] using rev_ind; intros Hh.
  - exists s0. split; [done|]. split; [done|]. split; [done|]. intros k. rewrite Hm, lookup_empty. split; [done|]. split; [by intros [? ?]|].
    intros H. by apply elem_of_nil in H.
  - destruct IH as (s & E & I1 & I2 & I3). { intros e' r ->. by apply (Hh e' (r ++ [e])). }
    unfold vm_add_all in *. rewrite foldl_app, E. cbn [foldl mbind option_bind].
    assert (length (v_props s) = length h) as Lp by (by rewrite I1, fmap_length).
    unfold vm_add. rewrite I2. destruct (Z.eqb_spec e.1 (last_key h l0)) as [Ek|Ek].
    + assert (h ≠ []) as Hne. { intros ->. apply (Hh e []); done. }
      destruct (I3 e.1) as [H3 H3']. destruct (v_map s !! e.1) as [[o n]|] eqn:Em; [|by destruct (proj2 H3 Hne)].
      destruct H3 as (N1 & N2 & N3 & N4). cbn [mbind option_bind]. eexists. split; [done|]. split; [cbn; by rewrite I1, fmap_app|].
      split; [cbn; by rewrite last_key_snoc|]. intros k. rewrite (last_run_snoc _ _ _ l0), last_key_snoc. cbn [v_map].
      destruct (decide (k = e.1)) as [->|Hk].
      * rewrite lookup_insert. rewrite Z.eqb_refl. split.
        -- split; [lia|]. rewrite app_length. cbn [length]. specialize (N4 Ek). split; [lia|]. split; [|intros; lia].
           rewrite <- Ek, Z.eqb_refl. rewrite (bool_decide_false (h = [])) by done. cbn [andb negb]. rewrite <- N3.
           rewrite fmap_app. cbn [fmap list_fmap]. rewrite drop_app_le by (rewrite fmap_length; lia).
           rewrite take_app_ge by (rewrite drop_length, fmap_length; lia). rewrite drop_length, fmap_length.
           replace (S n - (length h - o))%nat with 1%nat by lia. cbn. f_equal. rewrite take_ge; [done|]. rewrite drop_length, fmap_length. lia.
        -- rewrite fmap_app, elem_of_app. split; [intros _; right; by left|by eauto].
      * rewrite lookup_insert_ne by done. destruct (Z.eqb_spec e.1 k); [congruence|]. destruct (I3 k) as [H4 H4']. split.
        -- destruct (v_map s !! k) as [[o' n']|].
           ++ destruct H4 as (A1 & A2 & A3 & A4). split; [done|]. rewrite app_length. cbn [length]. split; [lia|]. split; [|done].
              rewrite fmap_app. rewrite drop_app_le by (rewrite fmap_length; lia). rewrite take_app_le by (rewrite drop_length, fmap_length; lia). done.
           ++ split; [apply H4|]. intros _. done.
        -- rewrite H4', fmap_app, elem_of_app. cbn. rewrite elem_of_list_singleton. naive_solver.
    + eexists. split; [done|]. split; [cbn; by rewrite I1, fmap_app|]. split; [cbn; by rewrite last_key_snoc|].
      intros k. rewrite (last_run_snoc _ _ _ l0), last_key_snoc. cbn [v_map].
      destruct (decide (k = e.1)) as [->|Hk].
      * rewrite lookup_insert. rewrite Z.eqb_refl, Lp. split.
        -- split; [lia|]. rewrite app_length. cbn [length]. split; [lia|]. split; [|done].
           destruct (Z.eqb_spec (last_key h l0) e.1); [congruence|]. cbn [andb]. rewrite fmap_app. cbn [fmap list_fmap].
           rewrite drop_app_alt by (by rewrite fmap_length). done.
        -- rewrite fmap_app, elem_of_app. split; [intros _; right; by left|by eauto].
      * rewrite lookup_insert_ne by done. destruct (Z.eqb_spec e.1 k); [congruence|]. destruct (I3 k) as [H4 H4']. split.
        -- destruct (v_map s !! k) as [[o' n']|].
           ++ destruct H4 as (A1 & A2 & A3 & A4). split; [done|]. rewrite app_length. cbn [length]. split; [lia|]. split; [|done].
              rewrite fmap_app. rewrite drop_app_le by (rewrite fmap_length; lia). rewrite take_app_le by (rewrite drop_length, fmap_length; lia). done.
           ++ split; [apply H4|]. intros _. done.
        -- rewrite H4', fmap_app, elem_of_app. cbn. rewrite elem_of_list_singleton. naive_solver.
Qed.
Theorem fill_ok s0 h : v_map s0 = ∅ → v_props s0 = [] → (∀ e r, h = e :: r → e.1 ≠ v_last s0) →
  ∃ s, vm_add_all s0 h = Some s ∧ (∀ k, vm_get s k = last_run k h) ∧ (∀ k, vm_occupied s k = bool_decide (k ∈ fst <$> h)) ∧
    v_last s = last_key h (v_last s0).
Proof.
  intros Hm Hp Hh. destruct (add_all_inv h s0 (v_last s0) Hm Hp eq_refl Hh) as (s & E & I1 & I2 & I3). exists s. split; [done|].
  split_and!; [| |done].
  - intros k. destruct (I3 k) as [H _]. unfold vm_get. destruct (v_map s !! k) as [[o n]|]; [|symmetry; apply H].
    rewrite I1. apply H.
  - intros k. unfold vm_occupied. apply bool_decide_ext. apply I3.
Qed.
Theorem fill_bad s0 h e : v_map s0 = ∅ → e.1 = v_last s0 → vm_add_all s0 (e :: h) = None.
Proof.
  intros Hm He. unfold vm_add_all. cbn [foldl mbind option_bind]. unfold vm_add. rewrite He, Z.eqb_refl, Hm, lookup_empty. cbn [mbind option_bind].
  induction h as [|a h IH]; done.
Qed.
Lemma grouped_app_l h h' : grouped (h ++ h') → grouped h.
Proof. intros H i j l a b c Hi A B C. eapply H; [done|by apply lookup_app_l_Some..]. Qed.
Lemma last_run_recorded k h : grouped h → last_run k h = recorded k h.
Proof.
  induction h as [|e h IH] using rev_ind; [done|]. intros Hg. pose proof (IH (grouped_app_l _ _ Hg)) as IH'.
  rewrite (last_run_snoc _ _ _ 0). unfold recorded. rewrite stdpp.list.filter_app, fmap_app. fold (recorded k h).
  rewrite stdpp.list.filter_cons, stdpp.list.filter_nil. destruct (Z.eqb_spec e.1 k) as [He|He].
  - rewrite decide_True by done. cbn [fmap list_fmap]. destruct ((last_key h 0 =? k)%Z && negb (bool_decide (h = []))) eqn:El.
    + by rewrite IH'.
    + destruct (recorded k h) as [|x l] eqn:Er; [done|]. exfalso.
      assert (x ∈ recorded k h) as Hx by (rewrite Er; by left). apply elem_of_list_fmap in Hx as (a & _ & Ha). apply elem_of_list_filter in Ha as [Hak Ha].
      apply elem_of_list_lookup in Ha as [i Hi]. pose proof (lookup_lt_Some _ _ _ Hi) as Hlt.
      destruct (exists_last (l := h)) as (h' & z & ->); [by intros ->|]. rewrite last_key_snoc in El.
      rewrite bool_decide_false in El by (by destruct h'). cbn [negb] in El. rewrite andb_true_r in El. apply Z.eqb_neq in El.
      rewrite app_length in Hlt. cbn [length] in Hlt. destruct (decide (i = length h')) as [->|Hne].
      * rewrite list_lookup_middle in Hi by done. congruence.
      * apply El. rewrite <- Hak. apply (Hg i (length h') (S (length h')) a z e); [lia|by apply lookup_app_l_Some| | |congruence].
        -- apply lookup_app_l_Some. by apply list_lookup_middle.
        -- apply list_lookup_middle. rewrite app_length. cbn. lia.
  - rewrite decide_False by done. cbn. by rewrite app_nil_r.
Qed.
End Map.

(** ** Voxelised boxes *)
Lemma mapM_Some_fmap {A B} (f : A → option B) (g : A → B) l : (∀ x, x ∈ l → f x = Some (g x)) → mapM f l = Some (g <$> l).
Proof.
  induction l as [|a l IH]; intros H; [done|]. cbn. rewrite (H a) by left. cbn. rewrite IH by (intros; apply H; by right). done.
Qed.
Lemma elem_of_imap_pair {A} (l : list A) i a : (i, a) ∈ imap pair l ↔ l !! i = Some a.
Proof.
  rewrite elem_of_list_lookup. split.
  - intros [j H]. rewrite list_lookup_imap in H. apply fmap_Some in H as (x & Hx & [= -> ->]). done.
  - intros H. exists i. by rewrite list_lookup_imap, H.
Qed.
Lemma NoDup_imap_pair {A} (l : list A) : NoDup (imap pair l).
Proof.
  apply NoDup_alt. intros i j [k x] Hi Hj. rewrite list_lookup_imap in Hi, Hj.
  apply fmap_Some in Hi as (? & _ & [= -> _]), Hj as (? & _ & [= -> _]). done.
Qed.
Definition nondecr {P} (h : list (Z * P)) : Prop := ∀ i j a b, (i < j)%nat → h !! i = Some a → h !! j = Some b → (a.1 ≤ b.1)%Z.
Lemma nondecr_grouped {P} (h : list (Z * P)) : nondecr h → grouped h.
Proof.
  intros H i j l a b c [Hij Hjl] A B C E. pose proof (H i j a b Hij A B). pose proof (H j l b c Hjl B C). lia.
Qed.
Lemma nondecr_app {P} (h h' : list (Z * P)) : nondecr h → nondecr h' → (∀ a b, a ∈ h → b ∈ h' → (a.1 ≤ b.1)%Z) → nondecr (h ++ h').
Proof.
  intros H1 H2 H3 i j a b Hij A B. apply lookup_app_Some in A as [A|[Ai A]], B as [B|[Bj B]].
  - by eapply H1.
  - apply H3; eapply elem_of_list_lookup_2; done.
  - apply lookup_lt_Some in B. lia.
  - eapply (H2 (i - length h)%nat (j - length h)%nat); [lia|done..].
Qed.
Lemma recorded_perm {P} k (h h' : list (Z * P)) : h ≡ₚ h' → recorded k h ≡ₚ recorded k h'.
Proof. intros H. unfold recorded. apply fmap_Permutation. by rewrite H. Qed.
Lemma elem_of_recorded {P} k (h : list (Z * P)) x : x ∈ recorded k h ↔ (k, x) ∈ h.
Proof.
  unfold recorded. rewrite elem_of_list_fmap. split.
  - intros ([k' x'] & -> & H). apply elem_of_list_filter in H as [E H]. cbn in *. by subst.
  - intros H. exists (k, x). split; [done|]. by apply elem_of_list_filter.
Qed.
Lemma NoDup_recorded {P} k (h : list (Z * P)) : NoDup h → NoDup (recorded k h).
Proof.
  intros H. unfold recorded. apply NoDup_fmap_2_strong; [|by apply stdpp.list.NoDup_filter].
  intros [k1 x1] [k2 x2] H1 H2 E. apply elem_of_list_filter in H1 as [E1 _], H2 as [E2 _]. cbn in *. by subst.
Qed.

Lemma join_fmap {A B} (f : A → list B) l : mjoin (f <$> l) = l ≫= f.
Proof. induction l as [|a l IH]; [done|]. cbn. by rewrite <- IH. Qed.

Lemma NoDup_bind {A B} (f : A → list B) l :
  (∀ x1 x2 y, x1 ∈ l → x2 ∈ l → y ∈ f x1 → y ∈ f x2 → x1 = x2) → (∀ x, x ∈ l → NoDup (f x)) → NoDup l → NoDup (l ≫= f).
Proof.
  intros H1 H2 Hl. induction Hl as [|x l Hx Hl IH]; [constructor|]. cbn. apply NoDup_app. split_and!.
  - apply H2. by left.
  - intros y Hy Hy'. apply elem_of_list_bind in Hy' as (x' & Hy' & Hx'). apply Hx.
    rewrite (H1 x x' y); [done|by left|by right|done|done].
  - apply IH; intros; [eapply H1; [by right|by right|done|done]|apply H2; by right].
Qed.

Section Boxes.
Variable rnd : R → R.
Definition between (lo c hi : Z * Z * Z) : Prop :=
  (lo.1.1 ≤ c.1.1 ≤ hi.1.1 ∧ lo.1.2 ≤ c.1.2 ≤ hi.1.2 ∧ lo.2 ≤ c.2 ≤ hi.2)%Z.
Lemma elem_of_box_cells g b cs c : box_cells rnd g b = Some cs →
  c ∈ cs ↔ in_grid g c ∧ ∃ lo hi, cells rnd g (bmin b) = Some lo ∧ cells rnd g (bmax b) = Some hi ∧ between lo c hi.
Proof.
  unfold box_cells. destruct (cells rnd g (bmin b)) as [[[lx ly] lz]|]; cbn [mbind option_bind]; [|done].
  destruct (cells rnd g (bmax b)) as [[[ux uy] uz]|]; cbn [mbind option_bind]; [|done]. intros [= <-]. destruct c as [[cx cy] cz].
  unfold in_grid, between. cbn [fst snd]. split.
  - intros (kx & H1 & Hx)%elem_of_list_bind. apply elem_of_list_bind in H1 as (ky & H1 & Hy). apply elem_of_list_bind in H1 as (kz & H1 & Hz).
    apply elem_of_list_singleton in H1. injection H1 as -> -> ->. apply elem_of_seqZ in Hx, Hy, Hz. split; [lia|].
    exists (lx, ly, lz), (ux, uy, uz). cbn. split; [done|]. split; [done|]. lia.
  - intros (Hg & lo & hi & [= <-] & [= <-] & Hb). cbn in Hb.
    apply elem_of_list_bind. exists cx. split; [|apply elem_of_seqZ; lia].
    apply elem_of_list_bind. exists cy. split; [|apply elem_of_seqZ; lia].
    apply elem_of_list_bind. exists cz. split; [|apply elem_of_seqZ; lia]. by apply elem_of_list_singleton.
Qed.
Lemma NoDup_box_cells g b cs : box_cells rnd g b = Some cs → NoDup cs.
Proof.
  unfold box_cells. destruct (cells rnd g (bmin b)) as [[[lx ly] lz]|]; cbn [mbind option_bind]; [|done].
  destruct (cells rnd g (bmax b)) as [[[ux uy] uz]|]; cbn [mbind option_bind]; [|done]. intros [= <-].
  apply NoDup_bind; [| |apply NoDup_seqZ].
  - intros x1 x2 y _ _ H1 H2. apply elem_of_list_bind in H1 as (? & H1 & _), H2 as (? & H2 & _).
    apply elem_of_list_bind in H1 as (? & H1 & _), H2 as (? & H2 & _). apply elem_of_list_singleton in H1, H2. congruence.
  - intros x _. apply NoDup_bind; [| |apply NoDup_seqZ].
    + intros x1 x2 y _ _ H1 H2. apply elem_of_list_bind in H1 as (? & H1 & _), H2 as (? & H2 & _). apply elem_of_list_singleton in H1, H2. congruence.
    + intros y _. apply NoDup_bind; [| |apply NoDup_seqZ].
      * intros x1 x2 z _ _ H1 H2. apply elem_of_list_singleton in H1, H2. congruence.
      * intros z _. apply NoDup_singleton.
Qed.
Theorem mark_ok g srt boxes : grid_ok g → sorts_keys srt →
  (∀ b, b ∈ boxes → is_Some (cells rnd g (bmin b)) ∧ is_Some (cells rnd g (bmax b))) →
  ∃ s, mark_boxes rnd srt g vm_new boxes = Some s ∧
    (∀ c, in_grid g c → NoDup (vm_get s (cell_number g c)) ∧ ∀ i, i ∈ vm_get s (cell_number g c) ↔
       ∃ b lo hi, boxes !! i = Some b ∧ cells rnd g (bmin b) = Some lo ∧ cells rnd g (bmax b) = Some hi ∧ between lo c hi) ∧
    (∀ k, (k < 0 ∨ g_nx g * g_ny g * g_nz g ≤ k)%Z → vm_get s k = []).
Proof.
  intros Hg Hs Hb.
  assert (∀ b, b ∈ boxes → is_Some (box_cells rnd g b)) as Hbc.
  { intros b Hbin. destruct (Hb b Hbin) as [[[[? ?] ?] E1] [[[? ?] ?] E2]]. unfold box_cells. rewrite E1, E2. cbn. eauto. }
  set (F := λ ib : nat * aabb, (λ c, (cell_number g c, ib.1)) <$> default [] (box_cells rnd g ib.2)).
  assert (mapM (box_keys rnd g) (imap pair boxes) = Some (F <$> imap pair boxes)) as Em.
  { apply mapM_Some_fmap. intros [i b] Hi. apply elem_of_imap_pair in Hi. destruct (Hbc b) as [cs Ecs]; [by eapply elem_of_list_lookup_2|].
    unfold box_keys, F. cbn [fst snd]. rewrite Ecs. cbn [mbind option_bind default]. apply mapM_Some_fmap. intros c Hc.
    apply (box_cells_in rnd g b cs c) in Hc; [|done]. by rewrite key_of_ok. }
  set (L := mjoin (F <$> imap pair boxes)).
  assert (∀ k i, (k, i) ∈ L ↔ ∃ b cs c, boxes !! i = Some b ∧ box_cells rnd g b = Some cs ∧ c ∈ cs ∧ k = cell_number g c) as HL.
  { intros k i. unfold L. rewrite elem_of_list_join. split.
    - intros (l & H1 & H2). apply elem_of_list_fmap in H2 as ([j b] & -> & H2). apply elem_of_imap_pair in H2. unfold F in H1. cbn [fst snd] in H1.
      apply elem_of_list_fmap in H1 as (c & [= -> ->] & Hc). destruct (Hbc b) as [cs Ecs]; [by eapply elem_of_list_lookup_2|]. rewrite Ecs in Hc. cbn in Hc. eauto 10.
    - intros (b & cs & c & H1 & H2 & H3 & ->). exists (F (i, b)). split.
      + unfold F. cbn [fst snd]. rewrite H2. cbn. apply elem_of_list_fmap. eauto.
      + apply elem_of_list_fmap. exists (i, b). split; [done|]. by apply elem_of_imap_pair. }
  assert (NoDup L) as HLn.
  { unfold L. rewrite join_fmap. apply NoDup_bind; [| |apply NoDup_imap_pair].
    - intros [i b] [j b'] y H1 H2 H3 H4. apply elem_of_imap_pair in H1, H2. unfold F in H3, H4. cbn [fst snd] in H3, H4.
      apply elem_of_list_fmap in H3 as (? & -> & _), H4 as (? & [= _ ->] & _). congruence.
    - intros [i b] H1. apply elem_of_imap_pair in H1. destruct (Hbc b) as [cs Ecs]; [by eapply elem_of_list_lookup_2|].
      unfold F. cbn [fst snd]. rewrite Ecs. cbn [default]. apply NoDup_fmap_2_strong; [|by eapply NoDup_box_cells].
      intros c c' H2 H3 [= E]. eapply (cell_number_inj g); [done| | |done]; by eapply (box_cells_in rnd g b cs). }
  destruct (Hs L) as [HP HS].
  assert (∀ e, e ∈ L → (0 ≤ e.1 < g_nx g * g_ny g * g_nz g)%Z) as Hr.
  { intros [k i] (b & cs & c & _ & H2 & H3 & ->)%HL. cbn. apply cell_number_bound; [done|]. by eapply (box_cells_in rnd g b cs c). }
  destruct (fill_ok (vm_new : vmap nat) (srt L)) as (s & E & G & _ & _); [done|done| |].
  { intros e r E. assert (e ∈ L) as He by (rewrite <- HP, E; by left). apply Hr in He. cbn. lia. }
  exists s. unfold mark_boxes. rewrite Em. cbn [mbind option_bind]. split; [done|].
  assert (∀ k, vm_get s k ≡ₚ recorded k L) as HR.
  { intros k. rewrite G, last_run_recorded by (by apply nondecr_grouped). by apply recorded_perm. }
  split.
  - intros c Hc. split; [rewrite HR; by apply NoDup_recorded|]. intros i. rewrite HR, elem_of_recorded, HL. split.
    + intros (b & cs & c' & H1 & H2 & H3 & H4). assert (in_grid g c') as Hc' by (by eapply (box_cells_in rnd g b cs c')).
      apply cell_number_inj in H4; [subst c'|done..]. apply (elem_of_box_cells g b cs c H2) in H3 as (_ & lo & hi & ?). exists b, lo, hi. naive_solver.
    + intros (b & lo & hi & H1 & H2 & H3 & H4). destruct (Hbc b) as [cs Ecs]; [by eapply elem_of_list_lookup_2|].
      exists b, cs, c. split; [done|]. split; [done|]. split; [|done]. apply (elem_of_box_cells g b cs c Ecs). naive_solver.
  - intros k Hk. destruct (vm_get s k) as [|i l] eqn:Eg; [done|]. assert (i ∈ vm_get s k) as Hi by (rewrite Eg; by left).
    rewrite HR, elem_of_recorded in Hi. apply Hr in Hi. cbn in Hi. lia.
Qed.
End Boxes.
