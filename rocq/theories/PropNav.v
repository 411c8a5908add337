(** Properties C10-C16, C57-C59: navigation index table and navigation states.
    In all theorems [hierarchy G world rank fuel] says that the placement hierarchy is
    acyclic, child ids are daughter positions, there are fewer than 65535 daughters and at
    most 255 levels (the limits asserted by the code); [fuel] only bounds the recursion. *)
From stdpp Require Import list option gmap fin_maps.
From Coq Require Import NArith ZArith Lia.
From Verif Require Import NavTableModel NavTableSpec NavTableProofs NavPathModel NavPathSpec NavPathProofs NavPathProofs3.
Local Open Scope N_scope.

(** A hierarchy for the examples: world 0 with daughters 1 and 2 of the same logical volume,
    whose daughter is 3; transformations are translations along one axis. *)
Definition exG : geo Z := Geo (λ p, if p =? 0 then [1; 2] else if (p =? 1) || (p =? 2) then [3] else [])
  (λ p, if p =? 2 then 1 else 0) (λ p, p =? 2) (λ p, Z.of_N (10 * p)).
Definition exT : tops Z := Tops 0%Z Z.add (λ z, negb (z =? 0)%Z) (λ _, false) (λ z t _, if t then z else 0%Z).
Definition exrank (p : N) : nat := if p =? 0 then 2 else if p <? 3 then 1 else 0.
Definition exA (z p : Z) : Z := (p - z)%Z.
Lemma exT_ok : tops_ok exT exA (λ _, True).
Proof.
  split; intros; cbn in *; unfold exA in *; try done; try lia;
    repeat match goal with
    | |- context [(?a =? 0)%Z] => destruct (Z.eqb_spec a 0)
    | H : context [(?a =? 0)%Z] |- _ => destruct (Z.eqb_spec a 0)
    end; cbn in *; try done; lia.
Qed.
Lemma ex_dau p d : d ∈ g_dau exG p → (p = 0 ∧ (d = 1 ∨ d = 2)) ∨ ((p = 1 ∨ p = 2) ∧ d = 3).
Proof.
  cbn. destruct (N.eqb_spec p 0) as [->|]; [rewrite !elem_of_cons, elem_of_nil; tauto|].
  destruct (N.eqb_spec p 1) as [->|]; [cbn; rewrite !elem_of_cons, elem_of_nil; tauto|].
  destruct (N.eqb_spec p 2) as [->|]; [cbn; rewrite !elem_of_cons, elem_of_nil; tauto|]. cbn. by rewrite elem_of_nil.
Qed.
Lemma ex_hierarchy : hierarchy exG 0 exrank 3.
Proof.
  assert (acyclic exG exrank) as Hac.
  { intros p d Hd. destruct (ex_dau p d Hd) as [[-> [-> | ->]]|[[-> | ->] ->]]; cbv; lia. }
  split; [done|..].
  - intros p k d Hk. cbn in Hk. destruct (N.eqb_spec p 0) as [->|].
    + destruct k as [|[|k]]; cbn in Hk; [by injection Hk as <-|by injection Hk as <-|done].
    + destruct ((p =? 1) || (p =? 2)); [|done]. destruct k as [|k]; cbn in Hk; [by injection Hk as <-|done].
  - intros p. cbn. destruct (p =? 0); [cbn; lia|]. destruct ((p =? 1) || (p =? 2)); cbn; lia.
  - intros l Hp.
    assert (∀ v l', l = v :: l' → length l' + exrank v ≤ 2)%nat as H.
    { induction Hp as [| |v d l Hp IH Hd]; intros u l'; [done|by intros [= <- <-]|].
      intros [= <- <-]. specialize (IH v l eq_refl). specialize (Hac v d Hd). cbn [length]. lia. }
    destruct l as [|v l]; [cbn; lia|]. specialize (H v l eq_refl). cbn [length]. lia.
  - cbv. lia.
Qed.

(** C10.  [Some] also says that no write of the filling pass leaves the allocation. *)
Theorem C10_table_size :
  ∀ (T : Type) (G : geo T) TO r limit rank world fuel,
    r = 1 ∨ r = 2 → acyclic G rank → few_daughters G → (rank world < fuel)%nat →
    ∃ bytes st, table_size G r limit fuel world = Some bytes ∧
      create_table G TO r limit fuel world = Some st ∧ 4 * cur st = bytes.
Proof. exact @final_size. Qed.
Print Assumptions C10_table_size.
Example C10_example : table_size exG 2 1 3 0 = Some 384 ∧ (st ← create_table exG exT 2 1 3 0; Some (cur st)) = Some 96.
Proof. by vm_compute. Qed.

(** C11 *)
Theorem C11_index_of_path :
  ∀ (T : Type) (G : geo T) TO r limit rank world fuel st,
    r = 1 ∨ r = 2 → hierarchy G world rank fuel → create_table G TO r limit fuel world = Some st →
    ∀ l, is_path G world l →
    ∃ c, path_index G (tab st) l = Some c ∧ (c = 0 ↔ l = []) ∧
      (∀ l', is_path G world l' → path_index G (tab st) l' = Some c → l' = l) ∧
      ∀ v up, l = v :: up →
        ∃ m, path_index G (tab st) up = Some m ∧ pop_impl (tab st) c = Some m ∧ top_impl (tab st) c = Some (Some v) ∧
          level_impl (tab st) c = Some (N.of_nat (length up)) ∧
          ndaughters_impl (tab st) c = Some (N.of_nat (length (g_dau G v))) ∧
          ∀ k d, g_dau G v !! k = Some d → nav_ind (tab st) (c + 3 + N.of_nat k) = path_index G (tab st) (d :: v :: up).
Proof. exact @final_index. Qed.
Print Assumptions C11_index_of_path.
Example C11_example : hierarchy exG 0 exrank 3 ∧
  (st ← create_table exG exT 2 1 3 0; Some (map (path_index exG (tab st)) [[0]; [1; 0]; [3; 1; 0]; [2; 0]; [3; 2; 0]]))
  = Some [Some 1; Some 32; Some 60; Some 64; Some 92].
Proof. split; [exact ex_hierarchy|by vm_compute]. Qed.

(** C12 *)
Theorem C12_compact_stack :
  ∀ (T : Type) (G : geo T) TO r limit rank world fuel st,
    r = 1 ∨ r = 2 → hierarchy G world rank fuel → create_table G TO r limit fuel world = Some st →
    ∀ os a f, abs_run G world abs_new os = Some a → (256 ≤ f)%nat →
    ∃ s, nsi_run G (tab st) nsi_new os = Some s ∧
      nsi_outside s = bool_decide (ab_path a = []) ∧
      nsi_top (tab st) s = Some (head (ab_path a)) ∧
      (ab_path a ≠ [] → nsi_level (tab st) s = Some (N.of_nat (length (ab_path a) - 1))) ∧
      (∀ v up, ab_path a = v :: up → nsi_ndaughters (tab st) s = Some (N.of_nat (length (g_dau G v)))) ∧
      (∀ i, nsi_at f (tab st) s i = Some (vol_at (ab_path a) i)) ∧
      (∀ i v, vol_at (ab_path a) i = Some v → nsi_value_at f (tab st) s i = Some v) ∧
      nsi_last_exited (tab st) s = Some (head (ab_last a)) ∧ n_bnd s = ab_bnd a.
Proof. exact @final_stack. Qed.
Print Assumptions C12_compact_stack.
Theorem C12_same_path :
  ∀ (T : Type) (G : geo T) TO r limit rank world fuel st,
    r = 1 ∨ r = 2 → hierarchy G world rank fuel → create_table G TO r limit fuel world = Some st →
    ∀ os1 os2 a1 a2 s1 s2, abs_run G world abs_new os1 = Some a1 → abs_run G world abs_new os2 = Some a2 →
      nsi_run G (tab st) nsi_new os1 = Some s1 → nsi_run G (tab st) nsi_new os2 = Some s2 →
      nsi_same s1 s2 = bool_decide (ab_path a1 = ab_path a2).
Proof. exact @final_same. Qed.
Print Assumptions C12_same_path.
(** On an outside state GetLevel() reads the world's volume id, and Push ignores which
    volume is pushed. *)
Theorem C12_outside_refuted :
  ∀ (T : Type) (G : geo T) TO r limit rank world fuel st,
    r = 1 ∨ r = 2 → hierarchy G world rank fuel → create_table G TO r limit fuel world = Some st →
    ∀ s, n_ind s = 0 →
      nsi_level (tab st) s = Some (world mod 256) ∧
      ∀ v, nsi_push G (tab st) s v = Some (Nsi 1 (n_last s) (n_bnd s)).
Proof. exact @final_outside. Qed.
Print Assumptions C12_outside_refuted.
Definition ex_os : list nop := [NPush 0; NPush 1; NPush 3; NSetLast; NPop; NPop; NPush 2; NPush 3; NSetBoundary true].
Example C12_example : hierarchy exG 0 exrank 3 ∧
  abs_run exG 0 abs_new ex_os = Some (Abs [3; 2; 0] [3; 1; 0] true) ∧
  (st ← create_table exG exT 2 1 3 0; s ← nsi_run exG (tab st) nsi_new ex_os;
   Some (s, map (nsi_at 256 (tab st) s) [-1; 0; 1; 2; 3]%Z)) =
  Some (Nsi 92 60 true, [Some None; Some (Some 0); Some (Some 2); Some (Some 3); Some None]).
Proof. split_and!; [exact ex_hierarchy|done|by vm_compute]. Qed.

(** C13 *)
Theorem C13_path_stack :
  ∀ os m, depth_ok (Nat.min (m + 1) 255) [] os →
    let l := foldl list_step [] os in
    ∃ s, nsp_run (nsp_make m) os = Some s ∧
      nsp_outside s = bool_decide (l = []) ∧ nsp_top s = Some (head l) ∧
      nsp_current_level s = N.of_nat (length l) ∧ (l ≠ [] → nsp_level s = N.of_nat (length l - 1)) ∧
      (∀ i, (i < length l)%nat → nsp_at s (Z.of_nat i) = Some (rev l !! i)) ∧ p_bnd s = foldl bnd_step false os.
Proof. exact final_path. Qed.
Print Assumptions C13_path_stack.
Example C13_example : depth_ok (Nat.min (2 + 1) 255) [] ex_os ∧ foldl list_step [] ex_os = [3; 2; 0] ∧
  (s ← nsp_run (nsp_make 2) ex_os; nsp_top s) = Some (Some 3).
Proof. split; [cbn; lia|done]. Qed.
(** At 256 volumes the unsigned char level wraps: the state claims to be outside. *)
Theorem C13_wrap_refuted :
  ∀ vs, length vs = 256%nat →
    ∃ s, nsp_run (nsp_make 255) (map NPush vs) = Some s ∧ nsp_outside s = true.
Proof. exact final_wrap. Qed.
Print Assumptions C13_wrap_refuted.
(** GetLastExited() answers null when fewer than three slots are left above the level. *)
Theorem C13_last_exited_refuted :
  ∃ s, nsp_run (nsp_make 2) [NPush 5; NPush 6; NPush 7; NPop] = Some s ∧ nsp_last_exited s = Some None.
Proof. by eexists. Qed.
Print Assumptions C13_last_exited_refuted.

(** C14 *)
Theorem C14_interchangeable :
  ∀ (T : Type) (G : geo T) TO r limit rank world fuel st,
    r = 1 ∨ r = 2 → hierarchy G world rank fuel → create_table G TO r limit fuel world = Some st →
    ∀ os a f m, abs_run G world abs_new os = Some a → (256 ≤ f)%nat → depth_ok (Nat.min (m + 1) 255) [] os →
    ∃ s p, nsi_run G (tab st) nsi_new os = Some s ∧ nsp_run (nsp_make m) os = Some p ∧
      nsi_outside s = nsp_outside p ∧ nsi_top (tab st) s = nsp_top p ∧ n_bnd s = p_bnd p ∧
      nsi_path_indices G f (tab st) s = nsp_path_indices G p ∧
      (nsi_outside s = false → nsi_level (tab st) s = Some (nsp_level p)) ∧
      (∀ i, (i < length (ab_path a))%nat → nsi_at f (tab st) s (Z.of_nat i) = nsp_at p (Z.of_nat i)).
Proof. exact @final_both. Qed.
Print Assumptions C14_interchangeable.
Example C14_example : hierarchy exG 0 exrank 3 ∧ is_Some (abs_run exG 0 abs_new ex_os) ∧ depth_ok (Nat.min (2 + 1) 255) [] ex_os.
Proof. split_and!; [exact ex_hierarchy|by eexists|cbn; lia..]. Qed.

(** C15 *)
Theorem C15_compact_round_trip :
  ∀ (T : Type) (G : geo T) TO r limit rank world fuel st,
    r = 1 ∨ r = 2 → hierarchy G world rank fuel → create_table G TO r limit fuel world = Some st →
    ∀ os a f s s0, abs_run G world abs_new os = Some a → (256 ≤ f)%nat → nsi_run G (tab st) nsi_new os = Some s →
    ∃ ids s', nsi_path_indices G f (tab st) s = Some ids ∧ ids = positions G (ab_path a) ∧
      nsi_reset_path G (tab st) s0 world ids = Some s' ∧ nsi_same s s' = true ∧ n_bnd s' = false ∧
      nsi_last_exited (tab st) s' = Some None.
Proof. exact @final_roundtrip. Qed.
Print Assumptions C15_compact_round_trip.
Theorem C15_path_round_trip :
  ∀ (T : Type) (G : geo T) world os a m os' s0 p, child_ids G →
    abs_run G world abs_new os = Some a → depth_ok (Nat.min (m + 1) 255) [] os → nsp_run (nsp_make m) os = Some p →
    depth_ok (Nat.min (m + 1) 255) [] os' → nsp_run (nsp_make m) os' = Some s0 →
    ∃ ids s', nsp_path_indices G p = Some ids ∧ nsp_reset_path G s0 world ids = Some s' ∧
      nsp_same p s' = Some true ∧ p_bnd s' = p_bnd s0.
Proof. exact @final_path_roundtrip'. Qed.
Print Assumptions C15_path_round_trip.
Example C15_example :
  (st ← create_table exG exT 2 1 3 0; s ← nsi_run exG (tab st) nsi_new ex_os; ids ← nsi_path_indices exG 256 (tab st) s;
   s' ← nsi_reset_path exG (tab st) nsi_new 0 ids; Some (ids, n_ind s')) = Some ([0; 1; 0], 92) ∧
  (p ← nsp_run (nsp_make 2) ex_os; ids ← nsp_path_indices exG p; p' ← nsp_reset_path exG (nsp_make 2) 0 ids; Some (ids, p_vals p')) =
  Some ([0; 1; 0], [0; 2; 3]).
Proof. by vm_compute. Qed.

(** C16 for abstract transformations acting on points; see PropTransform for Transformation3D. *)
Theorem C16_compact_matrix :
  ∀ (T : Type) (G : geo T) TO r limit rank world fuel st,
    r = 1 ∨ r = 2 → hierarchy G world rank fuel → create_table G TO r limit fuel world = Some st →
    ∀ (P : Type) (act : T → P → P) (ok : T → Prop), tops_ok TO act ok → (∀ v, ok (g_tr G v)) →
    ∀ os a f s, abs_run G world abs_new os = Some a → (256 ≤ f)%nat → nsi_run G (tab st) nsi_new os = Some s →
    ∃ m, nsi_top_matrix G TO r f (tab st) s = Some m ∧ ∀ p, act m p = local_point G act (ab_path a) p.
Proof. exact @final_matrix. Qed.
Print Assumptions C16_compact_matrix.
Theorem C16_compact_matrix_level :
  ∀ (T : Type) (G : geo T) TO r limit rank world fuel st,
    r = 1 ∨ r = 2 → hierarchy G world rank fuel → create_table G TO r limit fuel world = Some st →
    ∀ (P : Type) (act : T → P → P) (ok : T → Prop), tops_ok TO act ok → (∀ v, ok (g_tr G v)) →
    ∀ os a f s lev, abs_run G world abs_new os = Some a → (256 ≤ f)%nat → nsi_run G (tab st) nsi_new os = Some s →
    (lev < length (ab_path a))%nat →
    ∃ m, nsi_top_matrix_to G TO r f (tab st) s (Z.of_nat lev) = Some m ∧
      ∀ p, act m p = local_point G act (drop (length (ab_path a) - 1 - lev) (ab_path a)) p.
Proof. exact @final_matrix_to. Qed.
Print Assumptions C16_compact_matrix_level.
(** NavStatePath: TopMatrix skips the world's own transformation, GlobalToLocal applies it. *)
Theorem C16_path_matrix :
  ∀ (T : Type) (G : geo T) TO (P : Type) (act : T → P → P) ok os m s p,
    tops_ok TO act ok → (∀ v, ok (g_tr G v)) → depth_ok (Nat.min (m + 1) 255) [] os → nsp_run (nsp_make m) os = Some s →
    (∃ mat, nsp_top_matrix G TO s = Some mat ∧ act mat p = local_point G act (foldl list_step [] os) p) ∧
    nsp_global_to_local G act s p = Some (foldr (λ d q, act (g_tr G d) q) p (foldl list_step [] os)).
Proof. exact @final_path_matrix. Qed.
Print Assumptions C16_path_matrix.
Example C16_example : tops_ok exT exA (λ _, True) ∧
  (st ← create_table exG exT 2 1 3 0; s ← nsi_run exG (tab st) nsi_new ex_os; nsi_top_matrix exG exT 2 256 (tab st) s) = Some 50%Z ∧
  local_point exG exA [3; 2; 0] 7%Z = (-43)%Z.
Proof. split; [exact exT_ok|by vm_compute]. Qed.
(** Hence the two functions of NavStatePath disagree when the world is displaced. *)
Theorem C16_path_world_refuted :
  ∃ (G : geo Z) s m, nsp_run (nsp_make 1) [NPush 1] = Some s ∧ nsp_top_matrix G exT s = Some m ∧
    nsp_global_to_local G exA s 0%Z ≠ Some (exA m 0%Z).
Proof. by eexists exG, _, _. Qed.
Print Assumptions C16_path_world_refuted.

(** C57: Distance and RelativePath *)
Theorem C57_compact_distance :
  ∀ (T : Type) (G : geo T) TO r limit rank world fuel st,
    r = 1 ∨ r = 2 → hierarchy G world rank fuel → create_table G TO r limit fuel world = Some st →
    ∀ os1 os2 a1 a2 s1 s2 f, abs_run G world abs_new os1 = Some a1 → abs_run G world abs_new os2 = Some a2 →
      nsi_run G (tab st) nsi_new os1 = Some s1 → nsi_run G (tab st) nsi_new os2 = Some s2 →
      ab_path a1 ≠ [] → ab_path a2 ≠ [] → (256 ≤ f)%nat →
      nsi_distance f (tab st) s1 s2 = Some (Z.of_nat (length (ab_path a1)) + Z.of_nat (length (ab_path a2))
         - 2 * Z.of_nat (common (rev (ab_path a1)) (rev (ab_path a2))))%Z ∧
      ∃ ms, nsi_relative f (tab st) s1 s2 = Some ms ∧ foldl do_move (ab_path a1) ms = ab_path a2.
Proof. exact @final_compare. Qed.
Print Assumptions C57_compact_distance.
Theorem C57_path_distance :
  ∀ os1 os2 m1 m2 s1 s2,
    depth_ok (Nat.min (m1 + 1) 255) [] os1 → depth_ok (Nat.min (m2 + 1) 255) [] os2 →
    nsp_run (nsp_make m1) os1 = Some s1 → nsp_run (nsp_make m2) os2 = Some s2 →
    let l1 := foldl list_step [] os1 in let l2 := foldl list_step [] os2 in
    nsp_distance s1 s2 = Some (Z.of_nat (length l1) + Z.of_nat (length l2) - 2 * Z.of_nat (common (rev l1) (rev l2)))%Z ∧
    ∃ ms, nsp_relative s1 s2 = Some ms ∧ foldl do_move l1 ms = l2.
Proof. intros os1 os2 m1 m2 s1 s2 H1 H2 H3 H4. by destruct (final_path_pair os1 os2 m1 m2 s1 s2 H1 H2 H3 H4) as (_ & ? & ? & _). Qed.
Print Assumptions C57_path_distance.
Example C57_example :
  (a ← nsp_run (nsp_make 2) [NPush 0; NPush 1; NPush 3]; b ← nsp_run (nsp_make 2) ex_os; d ← nsp_distance a b; r ← nsp_relative a b; Some (d, r))
  = Some (4%Z, [MUp; MHoriz 1; MDown 3]).
Proof. by vm_compute. Qed.

(** C58: ValidateState accepts every state over a freshly built table. *)
Theorem C58_validate :
  ∀ (T : Type) (G : geo T) TO r limit rank world fuel st,
    r = 1 ∨ r = 2 → hierarchy G world rank fuel → create_table G TO r limit fuel world = Some st →
    ∀ (P : Type) (act : T → P → P) (ok : T → Prop), tops_ok TO act ok → (∀ v, ok (g_tr G v)) →
    ∀ teq os a f m p, abs_run G world abs_new os = Some a → (256 ≤ f)%nat →
      depth_ok (Nat.min (m + 1) 255) [] os → nsp_run (nsp_make m) os = Some p → ab_path a ≠ [] →
      (∀ m1 m2, ok m1 → ok m2 → (∀ p, act m1 p = act m2 p) → teq m1 m2 = true) →
      ∃ c, path_index G (tab st) (ab_path a) = Some c ∧ validate G TO r teq f (tab st) p = Some (true, c).
Proof. exact @final_validate. Qed.
Print Assumptions C58_validate.
Example C58_example :
  (st ← create_table exG exT 2 1 3 0; p ← nsp_run (nsp_make 2) ex_os; validate exG exT 2 Z.eqb 256 (tab st) p) = Some (true, 92).
Proof. by vm_compute. Qed.

(** C59: comparison, assignment and CopyTo of path states *)
Theorem C59_path_copies :
  ∀ os1 os2 m1 m2 s1 s2,
    depth_ok (Nat.min (m1 + 1) 255) [] os1 → depth_ok (Nat.min (m2 + 1) 255) [] os2 →
    nsp_run (nsp_make m1) os1 = Some s1 → nsp_run (nsp_make m2) os2 = Some s2 →
    let l1 := foldl list_step [] os1 in let l2 := foldl list_step [] os2 in
    nsp_same s1 s2 = Some (bool_decide (l1 = l2)) ∧
    ((length l2 ≤ m1 + 1)%nat → ∃ s, nsp_assign s1 s2 = Some s ∧ nsp_same s s2 = Some true ∧ p_bnd s = p_bnd s2) ∧
    (m1 = m2 → (length l2 < m2 + 1)%nat →
       ∃ s, nsp_copy_to s2 s1 = Some s ∧ nsp_same s s2 = Some true ∧ p_bnd s = p_bnd s2 ∧ p_n s = p_n s1).
Proof. intros os1 os2 m1 m2 s1 s2 H1 H2 H3 H4. by destruct (final_path_pair os1 os2 m1 m2 s1 s2 H1 H2 H3 H4) as (? & _ & _ & ? & ?). Qed.
Print Assumptions C59_path_copies.
Example C59_example :
  (a ← nsp_run (nsp_make 3) [NPush 0; NPush 1]; b ← nsp_run (nsp_make 3) ex_os; s ← nsp_copy_to b a; nsp_same s b) = Some true.
Proof. done. Qed.
(** CopyTo from a full state leaves both objects: it copies one slot more than there is. *)
Theorem C59_copy_full_refuted :
  ∀ os m s other, depth_ok (Nat.min (m + 1) 255) [] os → nsp_run (nsp_make m) os = Some s →
    length (foldl list_step [] os) = (m + 1)%nat → nsp_copy_to s other = None.
Proof. exact final_copy_full. Qed.
Print Assumptions C59_copy_full_refuted.
(** CopyTo into a smaller state makes it claim the larger capacity, and assignment from a
    deeper state into a smaller one keeps the level but truncates the path. *)
Theorem C59_small_target_refuted :
  (∃ b s, nsp_run (nsp_make 3) [NPush 0] = Some b ∧ nsp_copy_to b (nsp_make 1) = Some s ∧
     (length (p_vals s) < p_n s)%nat) ∧
  (∃ b s, nsp_run (nsp_make 3) [NPush 0; NPush 1; NPush 3] = Some b ∧ nsp_assign (nsp_make 1) b = Some s ∧ nsp_top s = None).
Proof. split; eexists _, _; (split; [reflexivity|]); (split; [reflexivity|]); [vm_compute; lia|reflexivity]. Qed.
Print Assumptions C59_small_target_refuted.
(** Assignment fills every slot of the target: the source's slots, then null. *)
Theorem C59_assign_slots :
  ∀ a b s, nsp_assign a b = Some s → (p_n b ≤ length (p_vals b))%nat → length (p_vals a) = p_n a →
    ∀ i, (i < p_n a)%nat → p_vals s !! i = Some (if (i <? p_n b)%nat then default 0 (p_vals b !! i) else 0).
Proof. exact final_assign_slots. Qed.
Print Assumptions C59_assign_slots.
Example C59_assign_slots_example :
  (b ← nsp_run (nsp_make 1) [NPush 7]; a ← nsp_run (nsp_make 3) [NPush 1; NPush 2; NPush 3]; s ← nsp_assign a b; Some (p_vals s)) = Some [7; 0; 0; 0].
Proof. done. Qed.
