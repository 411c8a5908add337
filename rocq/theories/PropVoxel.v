(** Theorems about the voxel hash map and location voxels (C28, C29, C30, C63). *)
From stdpp Require Import gmap list list_numbers option sorting.
From Coq Require Import Reals ZArith NArith Lia Lra.
From Verif Require Import Real3 AABBModel AABBSpec AABBProofs VoxelModel VoxelSpec VoxelProofs VoxelLocate.

(** C28.  Keys number the cells: getKeyFromCells and keyToCell are inverse bijections between the cells and [0, Nx*Ny*Nz). *)
Theorem C28_keys :
  ∀ g, grid_ok g →
    (∀ c, in_grid g c → ∃ k, key_of g c = Some k ∧ (0 ≤ k < g_nx g * g_ny g * g_nz g)%Z ∧ key_to_cell g k = Some c) ∧
    (∀ k, (0 ≤ k < g_nx g * g_ny g * g_nz g)%Z → ∃ c, key_to_cell g k = Some c ∧ in_grid g c ∧ key_of g c = Some k) ∧
    (∀ c c', in_grid g c → in_grid g c' → key_of g c = key_of g c' → c = c').
Proof.
  intros g Hg. split_and!.
  - intros c Hc. exists (cell_number g c). split; [by apply key_of_ok|]. split; [by apply cell_number_bound|by apply key_to_cell_ok].
  - intros k Hk. destruct (cell_number_surj g k Hg Hk) as (c & Hc & <-). exists c. split; [by apply key_to_cell_ok|]. split; [done|by apply key_of_ok].
  - intros c c' Hc Hc' E. rewrite !key_of_ok in E by done. injection E as E. by eapply cell_number_inj.
Qed.
Print Assumptions C28_keys.
(** With exact arithmetic a point of the voxelised box lies in the voxel its key decodes to. *)
Theorem C28_points :
  ∀ lower len nx ny nz p, (0 < nx)%Z → (0 < ny)%Z → (0 < nz)%Z → (nx * ny * nz < 2 ^ 31)%Z →
    (0 < vx len ∧ 0 < vy len ∧ 0 < vz len)%R →
    (vx lower <= vx p < vx lower + vx len ∧ vy lower <= vy p < vy lower + vy len ∧ vz lower <= vz p < vz lower + vz len)%R →
    let g := mk_grid rid lower len nx ny nz in
    ∃ k c e, get_key rid g p = Some k ∧ (0 ≤ k < nx * ny * nz)%Z ∧ key_to_cell g k = Some c ∧ cells rid g p = Some c ∧
      extent rid g k = Some e ∧ in_box e p ∧
      (vx (bmax e) - vx (bmin e) = vx len / IZR nx ∧ vy (bmax e) - vy (bmin e) = vy len / IZR ny ∧ vz (bmax e) - vz (bmin e) = vz len / IZR nz)%R.
Proof.
  intros lower len nx ny nz p Hx Hy Hz Hm Hl Hp g.
  assert (grid_ok g) as Hg by (unfold grid_ok, g; cbn; lia).
  assert (grid_inv g) as Hgi by (by apply mk_grid_inv).
  assert (grid_box g p) as Hgb.
  { apply IZR_lt in Hx, Hy, Hz. unfold grid_box, g, mk_grid, rid. cbn.
    replace (IZR nx * (vx len / IZR nx))%R with (vx len) by (field; lra). replace (IZR ny * (vy len / IZR ny))%R with (vy len) by (field; lra).
    replace (IZR nz * (vz len / IZR nz))%R with (vz len) by (field; lra). done. }
  destruct (cells_exact g p Hg Hgi Hgb) as (c & Ec & Hc & Cx & Cy & Cz). destruct (extent_exact g c Hg Hc) as (e & Ee & E1 & E2 & E3 & E4 & E5 & E6).
  exists (cell_number g c), c, e. unfold get_key. rewrite Ec. cbn [mbind option_bind]. split; [by apply key_of_ok|].
  split; [by apply cell_number_bound|]. split; [by apply key_to_cell_ok|]. split; [done|]. split; [done|]. split.
  - unfold in_box. rewrite E1, E2, E3, E4, E5, E6. repeat split; lra.
  - rewrite E1, E2, E3, E4, E5, E6. rewrite !plus_IZR. unfold g, mk_grid, rid. cbn. repeat split; ring.
Qed.
Print Assumptions C28_points.
(** keyToPos is documented as the mid point of the voxel.  It is the lower corner for cell 0 and leaves the voxel from cell 3 on. *)
Theorem C28_midpoint_refuted :
  ∀ g c q e, grid_ok g → in_grid g c → (0 < vx (g_delta g))%R → key_to_pos g (cell_number g c) = Some q → extent rid g (cell_number g c) = Some e →
    (vx q = (vx (bmin e) + vx (bmax e)) / 2 ↔ c.1.1 = 1%Z)%R ∧ ((3 ≤ c.1.1)%Z → ¬ in_box e q) ∧ (c.1.1 = 0%Z → vx q = vx (bmin e)).
Proof.
  intros g c q e Hg Hc Hd Hq He. destruct (extent_exact g c Hg Hc) as (e' & Ee & E1 & _ & _ & E4 & _). rewrite He in Ee. injection Ee as <-.
  unfold key_to_pos in Hq. rewrite key_to_cell_ok in Hq by done. destruct c as [[kx ky] kz]. cbn [mbind option_bind] in Hq. injection Hq as <-.
  cbn [vx fst snd] in *. rewrite plus_IZR in E4. split_and!.
  - rewrite E1, E4. split.
    + intros H. apply eq_IZR. apply (Rmult_eq_reg_r (vx (g_delta g))); lra.
    + intros ->. lra.
  - intros H%IZR_le ((_ & H2) & _). rewrite E4 in H2. cbn [vx] in H2. assert (3 * vx (g_delta g) <= IZR kx * vx (g_delta g))%R by (apply Rmult_le_compat_r; lra). lra.
  - intros ->. lra.
Qed.
Print Assumptions C28_midpoint_refuted.
(** No range check: a point on the upper x face gets the key of a cell at the lower face. *)
Theorem C28_boundary_refuted :
  ∀ g kx ky kz k, grid_ok g → in_grid g (kx, ky, kz) → (ky + 1 < g_ny g)%Z →
    key_of g (g_nx g, ky, kz) = Some k → key_of g (0%Z, (ky + 1)%Z, kz) = Some k ∧ in_grid g (0%Z, (ky + 1)%Z, kz).
Proof.
  intros g kx ky kz k Hg Hc Hy Hk. assert (in_grid g (0%Z, (ky + 1)%Z, kz)) as Hc' by (unfold in_grid in *; destruct Hg as (?&?&?&?); cbn in *; lia).
  split; [|done]. rewrite key_of_ok by done. unfold key_of in Hk.
  destruct (to_int (kz * g_ny g)) as [a|] eqn:Ea; cbn [mbind option_bind] in Hk; [|done]. apply to_int_inv in Ea as ->.
  destruct (to_int (ky + _)) as [b|] eqn:Eb; cbn [mbind option_bind] in Hk; [|done]. apply to_int_inv in Eb as ->.
  destruct (to_int (g_nx g * _)) as [d|] eqn:Ed; cbn [mbind option_bind] in Hk; [|done]. apply to_int_inv in Ed as ->.
  apply to_int_inv in Hk as ->. f_equal. unfold cell_number. cbn. ring.
Qed.
Print Assumptions C28_boundary_refuted.
(** Conversion to int truncates: points less than one voxel below the grid share cell 0. *)
Theorem C28_below_refuted :
  ∀ x lo d, (0 < d)%R → (lo - d < x < lo)%R → cell1 rid x lo (1 / d) = Some 0%Z.
Proof.
  intros x lo d Hd H. unfold cell1, rid. set (v := ((x - lo) * (1 / d))%R). assert (x - lo = v * d)%R as E by (unfold v; field; lra).
  assert (-1 < v < 0)%R as Hv by (split; apply (Rmult_lt_reg_r d); lra). unfold rtrunc. destruct (rleb_spec 0 v); [lra|].
  rewrite (Int_part_unique (- v) 0) by lra. done.
Qed.
Print Assumptions C28_below_refuted.
Definition grid_example : grid := mk_grid rid (V3 0 0 0) (V3 4 6 8) 4 3 2.
Example C28_example : grid_ok grid_example ∧ in_grid grid_example (3, 2, 1)%Z ∧ key_of grid_example (3, 2, 1)%Z = Some 23%Z
  ∧ in_grid grid_example (1, 1, 0)%Z ∧ key_of grid_example (4, 0, 1)%Z = Some 16%Z ∧ (0 - 1 < - (1 / 2) < 0)%R.
Proof. unfold grid_ok, in_grid. cbn. repeat split; first [done | lia | lra]. Qed.

(** C29.  Any history: a lookup returns the last uninterrupted run of the key.  The only failure is a first key equal to the stored last key, −1 for a new map. *)
Theorem C29_any_history :
  ∀ (P : Type) (s0 : vmap P) h, v_map s0 = ∅ → v_props s0 = [] →
    ((∀ e, head h = Some e → e.1 ≠ v_last s0) →
      ∃ s, vm_add_all s0 h = Some s ∧ (∀ k, vm_get s k = last_run k h) ∧ (∀ k, vm_occupied s k = bool_decide (k ∈ fst <$> h))) ∧
    (∀ e, head h = Some e → e.1 = v_last s0 → vm_add_all s0 h = None).
Proof.
  intros P s0 h Hm Hp. split.
  - intros Hh. destruct (fill_ok s0 h Hm Hp) as (s & E & G & O & _); [intros e r ->; by apply Hh|]. eauto.
  - intros e He El. destruct h as [|a r]; [done|]. injection He as ->. by apply fill_bad.
Qed.
Print Assumptions C29_any_history.
(** Recorded key by key, into a new map. *)
Theorem C29_grouped :
  ∀ (P : Type) (h : list (Z * P)), grouped h → (∀ e, e ∈ h → (0 ≤ e.1)%Z) →
    ∃ s, vm_add_all vm_new h = Some s ∧ (∀ k, vm_get s k = recorded k h) ∧ (∀ k, vm_occupied s k = bool_decide (k ∈ fst <$> h)) ∧
      (∀ k, k ∉ fst <$> h → vm_get s k = []).
Proof.
  intros P h Hg Hk. destruct (fill_ok (vm_new : vmap P) h) as (s & E & G & O & _); [done|done| |].
  { intros e r ->. specialize (Hk e (elem_of_list_here _ _)). cbn. lia. }
  exists s. split; [done|]. split; [intros k; by rewrite G, last_run_recorded|]. split; [done|]. intros k Hn. by rewrite G, last_run_nil.
Qed.
Print Assumptions C29_grouped.
(** After clear(): as before if refilling starts with another key than the last one before, undefined otherwise. *)
Theorem C29_refill_partial :
  (* full statement: any refilling with consecutive keys; missing: refilling that starts with the last key used before clear() *)
  ∀ (P : Type) (h1 h2 : list (Z * P)) s1 e, vm_add_all vm_new (h1 ++ [e]) = Some s1 → grouped h2 → (∀ e', head h2 = Some e' → e'.1 ≠ e.1) →
    ∃ s, vm_add_all (vm_clear s1) h2 = Some s ∧ (∀ k, vm_get s k = recorded k h2) ∧ (∀ k, vm_occupied s k = bool_decide (k ∈ fst <$> h2)).
Proof.
  intros P h1 h2 s1 e E1 Hg Hh.
  assert (v_last s1 = e.1) as Hl.
  { unfold vm_add_all in E1. rewrite foldl_app in E1. cbn [foldl] in E1. destruct (foldl _ _ h1) as [s'|]; cbn [mbind option_bind] in E1; [|done].
    unfold vm_add in E1. destruct (Z.eqb_spec e.1 (v_last s')) as [->|]; [|by injection E1 as <-].
    destruct (v_map s' !! _) as [[o n]|]; cbn [mbind option_bind] in E1; [|done]. by injection E1 as <-. }
  destruct (fill_ok (vm_clear s1) h2) as (s & E & G & O & _); [done|done| |].
  { intros e' r ->. cbn. rewrite Hl. by apply Hh. }
  exists s. split; [done|]. split; [intros k; by rewrite G, last_run_recorded|done].
Qed.
Print Assumptions C29_refill_partial.
Theorem C29_refill_refuted :
  ∀ (P : Type) (h1 : list (Z * P)) (e e' : Z * P) h2, grouped (h1 ++ [e]) → (∀ x, x ∈ h1 ++ [e] → (0 ≤ x.1)%Z) → e'.1 = e.1 →
    ∃ s1, vm_add_all vm_new (h1 ++ [e]) = Some s1 ∧ vm_add_all (vm_clear s1) (e' :: h2) = None.
Proof.
  intros P h1 e e' h2 Hg Hk He. destruct (fill_ok (vm_new : vmap P) (h1 ++ [e])) as (s & E & _ & _ & L); [done|done| |].
  { intros a r Ea. assert (a ∈ h1 ++ [e]) as Ha by (rewrite Ea; by left). apply Hk in Ha. cbn. lia. }
  exists s. split; [done|]. apply fill_bad; [done|]. cbn. rewrite L, last_key_snoc. done.
Qed.
Print Assumptions C29_refill_refuted.
(** Interleaved keys lose what was recorded before. *)
Theorem C29_interleaved_refuted :
  ∀ (P : Type) (k k' : Z) (a b c : P), (0 ≤ k)%Z → k ≠ k' →
    ∃ s, vm_add_all vm_new [(k, a); (k', b); (k, c)] = Some s ∧ vm_get s k = [c] ∧ recorded k [(k, a); (k', b); (k, c)] = [a; c].
Proof.
  intros P k k' a b c Hk Hne. destruct (fill_ok (vm_new : vmap P) [(k, a); (k', b); (k, c)]) as (s & E & G & _ & _); [done|done| |].
  { intros e r [= <- <-]. cbn. lia. }
  exists s. split; [done|]. split.
  - rewrite G. unfold last_run. cbn. rewrite !Z.eqb_refl. cbn. rewrite Z.eqb_refl. rewrite (proj2 (Z.eqb_neq k' k)) by congruence. done.
  - unfold recorded. rewrite !stdpp.list.filter_cons. repeat case_decide; cbn in *; congruence.
Qed.
Print Assumptions C29_interleaved_refuted.
(** One property per key (ScalarProperties): the value kept is the first of the last run. *)
Theorem C29_scalar :
  ∀ (P : Type) (h : list (Z * P)), (∀ e, e ∈ h → (0 ≤ e.1)%Z) → ∀ k,
    sm_get (foldl (λ s e, sm_add s e.1 e.2) (Sm ∅ (-1)) h) k = take 1 (last_run k h).
Proof.
  intros P h. cut ((∀ e, e ∈ h → (0 ≤ e.1)%Z) → let s := foldl (λ s e, sm_add s e.1 e.2) (Sm ∅ (-1)) h in sc_last s = last_key h (-1) ∧
    ∀ k, sm_get s k = take 1 (last_run k h) ∧ (k ∈ fst <$> h → last_run k h ≠ [])).
  { intros H Hk k. apply (H Hk). }
  induction h as [|e h IH] using rev_ind; intros Hk.
  - split; [done|]. intros k. split; [unfold sm_get; cbn; by rewrite lookup_empty|]. intros H. by apply elem_of_nil in H.
  - destruct IH as [IL IH]; [intros; apply Hk, elem_of_app; by left|]. cbn zeta in *. rewrite foldl_app. cbn [foldl].
    set (s := foldl (λ s e, sm_add s e.1 e.2) (Sm ∅ (-1)) h) in *. rewrite last_key_snoc. unfold sm_add. rewrite IL.
    assert (0 ≤ e.1)%Z as He by (apply Hk, elem_of_app; right; by left).
    destruct (Z.eqb_spec e.1 (last_key h (-1))) as [El|El].
    + split; [by rewrite IL|]. intros k. destruct (IH k) as [IH1 IH2]. rewrite (last_run_snoc _ _ _ (-1)), <- El.
      destruct (Z.eqb_spec e.1 k) as [<-|Hne].
      * assert (h ≠ []) as Hh by (intros ->; cbn in El; lia). rewrite (bool_decide_false (h = [])) by done. cbn [andb negb].
        assert (last_run e.1 h ≠ []) as Hr. { apply IH2. rewrite El. destruct (exists_last Hh) as (h' & z & ->). rewrite last_key_snoc, fmap_app, elem_of_app. right. by left. }
        rewrite IH1. split; [by destruct (last_run e.1 h)|]. intros _. by destruct (last_run e.1 h).
      * rewrite IH1. split; [done|]. rewrite fmap_app, elem_of_app. cbn. rewrite elem_of_list_singleton. naive_solver.
    + split; [done|]. intros k. destruct (IH k) as [IH1 IH2]. rewrite (last_run_snoc _ _ _ (-1)). unfold sm_get in *. cbn [sc_map].
      destruct (Z.eqb_spec e.1 k) as [<-|Hne].
      * rewrite lookup_insert. destruct (Z.eqb_spec (last_key h (-1)) e.1); [congruence|]. done.
      * rewrite lookup_insert_ne by done. split; [done|]. rewrite fmap_app, elem_of_app. cbn. rewrite elem_of_list_singleton. naive_solver.
Qed.
Print Assumptions C29_scalar.
Definition hist_example : list (Z * nat) := [(4%Z, 7%nat); (4%Z, 8%nat); (2%Z, 9%nat)].
Example C29_example : grouped hist_example ∧ (∀ e, e ∈ hist_example → (0 ≤ e.1)%Z) ∧
  (λ s, (vm_get s 4%Z, vm_get s 2%Z, vm_get s 0%Z)) <$> vm_add_all vm_new hist_example = Some ([7; 8], [9], [])%nat.
Proof.
  split_and!; [|intros e He; unfold hist_example in He; repeat (apply elem_of_cons in He as [->|He]; [cbn; lia|]); by apply elem_of_nil in He|done].
  intros [|[|[|i]]] [|[|[|j]]] [|[|[|l]]] a b c Hi A B C; try lia; cbn in *; try done. by simplify_eq.
Qed.

(** C30.  For every monotone rounding: a point of box i falls, if inside the grid at all, in a voxel listing i. *)
Theorem C30_conservative :
  ∀ rnd g srt boxes p i b c, (∀ x y, (x <= y)%R → (rnd x <= rnd y)%R) → grid_ok g → (0 <= vx (g_inv g) ∧ 0 <= vy (g_inv g) ∧ 0 <= vz (g_inv g))%R →
    sorts_keys srt → (∀ b, b ∈ boxes → is_Some (cells rnd g (bmin b)) ∧ is_Some (cells rnd g (bmax b))) →
    boxes !! i = Some b → in_box b p → cells rnd g p = Some c → in_grid g c →
    ∃ s k, mark_boxes rnd srt g vm_new boxes = Some s ∧ get_key rnd g p = Some k ∧ i ∈ vm_get s k.
Proof.
  intros rnd g srt boxes p i b c Hr Hg Hi Hs Hb Eb Hp Ec Hc. destruct (mark_ok rnd g srt boxes Hg Hs Hb) as (s & E & G & _).
  exists s, (cell_number g c). split; [done|]. unfold get_key. rewrite Ec. cbn [mbind option_bind]. split; [by apply key_of_ok|].
  apply (G c Hc). destruct (Hb b) as [[lo Hlo] [hi Hhi]]; [by eapply elem_of_list_lookup_2|].
  exists b, lo, hi. do 3 (split; [done|]).
  assert (is_Some (box_cells rnd g b)) as [cs Ecs]. { unfold box_cells. rewrite Hlo, Hhi. destruct lo as [[? ?] ?], hi as [[? ?] ?]. cbn. eauto. }
  pose proof (box_cells_point rnd Hr g b cs p c Hi Hp Ecs Ec Hc) as Hin.
  apply (elem_of_box_cells rnd g b cs c Ecs) in Hin as (_ & lo' & hi' & E1 & E2 & Hbt). congruence.
Qed.
Print Assumptions C30_conservative.
(** Exactly the boxes whose cell range covers the voxel are listed, each once; no key outside the grid is filled. *)
Theorem C30_exact :
  ∀ rnd g srt boxes, grid_ok g → sorts_keys srt →
    (∀ b, b ∈ boxes → is_Some (cells rnd g (bmin b)) ∧ is_Some (cells rnd g (bmax b))) →
    ∃ s, mark_boxes rnd srt g vm_new boxes = Some s ∧
      (∀ c k, in_grid g c → key_of g c = Some k → NoDup (vm_get s k) ∧ ∀ i, i ∈ vm_get s k ↔
        ∃ b lo hi, boxes !! i = Some b ∧ cells rnd g (bmin b) = Some lo ∧ cells rnd g (bmax b) = Some hi ∧ between lo c hi) ∧
      (∀ k, (k < 0 ∨ g_nx g * g_ny g * g_nz g ≤ k)%Z → vm_get s k = []).
Proof.
  intros rnd g srt boxes Hg Hs Hb. destruct (mark_ok rnd g srt boxes Hg Hs Hb) as (s & E & G & N). exists s. split; [done|]. split; [|done].
  intros c k Hc Hk. rewrite key_of_ok in Hk by done. injection Hk as <-. by apply G.
Qed.
Print Assumptions C30_exact.
(** With exact arithmetic no assumption about cells is left. *)
Theorem C30_points :
  ∀ lower len nx ny nz srt boxes p i b, (0 < nx)%Z → (0 < ny)%Z → (0 < nz)%Z → (nx * ny * nz < 2 ^ 31)%Z →
    (0 < vx len ∧ 0 < vy len ∧ 0 < vz len)%R → sorts_keys srt →
    let g := mk_grid rid lower len nx ny nz in
    (∀ b, b ∈ boxes → is_Some (cells rid g (bmin b)) ∧ is_Some (cells rid g (bmax b))) →
    (vx lower <= vx p < vx lower + vx len ∧ vy lower <= vy p < vy lower + vy len ∧ vz lower <= vz p < vz lower + vz len)%R →
    boxes !! i = Some b → in_box b p →
    ∃ s k, mark_boxes rid srt g vm_new boxes = Some s ∧ get_key rid g p = Some k ∧ i ∈ vm_get s k.
Proof.
  intros lower len nx ny nz srt boxes p i b Hx Hy Hz Hm Hl Hs g Hb Hp Eb Hin.
  destruct (C28_points lower len nx ny nz p Hx Hy Hz Hm Hl Hp) as (k & c & e & K1 & K2 & K3 & K4 & _). fold g in K1, K3, K4.
  assert (grid_ok g) as Hg by (unfold grid_ok, g; cbn; lia).
  assert (in_grid g c) as Hc.
  { destruct (cell_number_surj g k Hg K2) as (c' & Hc' & <-). rewrite key_to_cell_ok in K3 by done. by injection K3 as <-. }
  destruct (mk_grid_inv lower len nx ny nz Hx Hy Hz Hl) as [(D1 & D2 & D3) (I1 & I2 & I3)]. fold g in D1, D2, D3, I1, I2, I3.
  eapply (C30_conservative rid g srt boxes p i b c); try done.
  rewrite I1, I2, I3. unfold Rdiv. rewrite !Rmult_1_l. repeat split; left; by apply Rinv_0_lt_compat.
Qed.
Print Assumptions C30_points.
Definition key_le (a b : Z * nat) : Prop := (a.1 ≤ b.1)%Z.
#[local] Instance key_le_dec a b : Decision (key_le a b) := Z_le_dec a.1 b.1.
Example C30_example : in_box (Box (V3 1 1 1) (V3 2 3 5)) (V3 2 2 4) ∧ (0 <= 2 < 0 + 4)%R ∧ sorts_keys (λ l : list (Z * nat), merge_sort key_le l).
Proof.
  unfold in_box. cbn. split; [lra|]. split; [lra|]. intros l. split; [apply merge_sort_Permutation|].
  assert (∀ (l : list (Z * nat)), StronglySorted key_le l → nondecr l) as H.
  { clear. induction 1 as [|x l Hl IH Hx]; [by intros i j a b _ ?|]. intros [|i] [|j] a b Hij Ha Hb; [lia| |lia|]; cbn in *.
    - injection Ha as ->. rewrite List.Forall_forall in Hx. apply Hx. apply elem_of_list_In. by eapply elem_of_list_lookup_2.
    - eapply (IH i j); [lia|done..]. }
  apply H. apply Sorted_StronglySorted.
  - intros a b c; unfold key_le; lia.
  - apply Sorted_merge_sort. intros a b. unfold key_le. lia.
Qed.

(** C63.  The tasks building the location voxels share the voxels without overlap: each index belongs to exactly one task. *)
Theorem C63_tasks :
  ∀ s m i, (1 ≤ m)%nat → (i < s)%nat →
    (∃ t, (t < m)%nat ∧ ∀ t', (t' < m)%nat → ((chunk s m t').1 ≤ i < (chunk s m t').2)%nat ↔ t' = t) ∧
    (∀ t, (t < m)%nat → ((chunk s m t).2 ≤ s)%nat) ∧
    (∀ (A : Type) (cand : nat → list A), collect s m cand i = cand i).
Proof.
  intros s m i Hm Hi. split; [by apply chunk_one|]. split; [intros; by apply chunk_range|intros; by apply collect_ok].
Qed.
Print Assumptions C63_tasks.
(** Location through the voxels: the first daughter in list order whose box strictly contains the point and which accepts it. *)
Theorem C63_locate :
  ∀ m lower upper boxes dau p accept, (1 ≤ m)%nat → length dau = length boxes →
    (vx lower < vx upper ∧ vy lower < vy upper ∧ vz lower < vz upper)%R → in_box (Box lower upper) p →
    ∃ gs, build_locate rid m lower upper boxes = Some gs ∧
    ∃ r, voxel_locate rid gs boxes dau p accept = Some r ∧ first_eligible boxes dau p accept r.
Proof. intros. by apply voxel_locate_ok. Qed.
Print Assumptions C63_locate.
(** std::thread::hardware_concurrency may return 0; then the voxels stay empty and no daughter is ever found. *)
Theorem C63_no_threads_refuted :
  ∀ lower upper boxes dau p accept, (vx lower < vx upper ∧ vy lower < vy upper ∧ vz lower < vz upper)%R → in_box (Box lower upper) p →
    ∃ gs, build_locate rid 0 lower upper boxes = Some gs ∧ voxel_locate rid gs boxes dau p accept = Some None.
Proof. intros. by apply voxel_locate_zero_tasks. Qed.
Print Assumptions C63_no_threads_refuted.
Example C63_example : eligible [Box (V3 0 0 0) (V3 1 1 1); Box (V3 1 0 0) (V3 2 1 1)] [5; 6]%N (V3 (3 / 2) (1 / 2) (1 / 2)) (λ _, Some (V3 0 0 0)) 1 6 (V3 0 0 0)
  ∧ (chunk 1000 12 11).1 = 913%nat ∧ (chunk 1000 12 11).2 = 1000%nat.
Proof. split; [|by vm_compute]. eexists. split; [done|]. unfold strictly_in. cbn. repeat split; lra. Qed.
