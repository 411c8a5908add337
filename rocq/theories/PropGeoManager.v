(** C51-C53: the geometry manager. *)
From stdpp Require Import list option gmap fin_maps.
From Coq Require Import NArith ZArith Lia.
From Verif Require Import NavTableModel NavPathModel GeoManagerModel GeoManagerSpec.
From Verif Require Import GeoManagerProofs GeoManagerProofs2 GeoVisitProofs GeoManagerProofs3 GeoManagerProofs4 GeoManagerProofs5.
Local Open Scope N_scope.

(** A world (label 10) with two placements of a Boolean volume (label 11) built of two boxes. *)
Definition ex_build : list (op N N) :=
  [NewU 0 (Simple 7); NewL 0 10 0; NewP 0 100 0 500;
   NewL 1 12 0; NewP 1 101 1 501; NewP 2 102 1 502; NewU 1 (Boolean 2 (Obj 1) (Obj 2)); NewL 2 11 1;
   NewP 3 103 2 503; NewP 4 103 2 504; PlaceD 0 (Obj 3); PlaceD 0 (Obj 4); SetWorld (Obj 0)].
(** A longer history: destruction, re-use of an address, clearing. *)
Definition ex_long : list (op N N) :=
  ex_build ++ [DelP 4; NewP 4 104 2 505; DelL 1] ++ [Clear; NewL 5 12 0; NewP 6 100 5 1; NewP 7 101 5 2; DelP 6; NewP 6 101 5 3].
Lemma ex_build_proper : proper ex_build.
Proof. by apply builds_proper. Qed.
(** A decision procedure for [no_stale] on concrete histories. *)
Fixpoint stale_free {D} (live : list N) (es : list (ev D)) : bool :=
  match es with
  | [] => true
  | ENew a _ :: r => stale_free (a :: live) r
  | EDel a :: r => bool_decide (a ∈ live) && stale_free live r
  | EClear :: r => stale_free [] r
  | _ :: r => stale_free live r
  end.
Lemma stale_free_ok {D} (es : list (ev D)) : stale_free [] es = true → no_stale es.
Proof.
  assert (∀ es live pre, (∀ a, a ∈ live → ∃ d, ENew a d ∈ since_clear pre) → stale_free (D:=D) live es = true →
    ∀ es1 a es2, es = es1 ++ EDel a :: es2 → ∃ d, ENew a d ∈ since_clear (pre ++ es1)) as H.
  { clear es. induction es as [|e es IH]; intros live pre Hl Hs es1 a es2 E; [by destruct es1|].
    destruct es1 as [|e1 es1]; cbn in E; injection E as -> E.
    - cbn in Hs. apply andb_true_iff in Hs as [Hs _]. apply bool_decide_eq_true in Hs. rewrite app_nil_r. by apply Hl.
    - replace (pre ++ e1 :: es1) with ((pre ++ [e1]) ++ es1) by (by rewrite <-app_assoc).
      destruct e1 as [b d|b| | |]; cbn in Hs.
      + eapply (IH (b :: live)); [|done|done]. intros c. rewrite since_clear_snoc, elem_of_cons. intros [->|Hc]; [exists d; set_solver|].
        apply Hl in Hc as [d' Hc]. exists d'. set_solver.
      + apply andb_true_iff in Hs as [_ Hs]. eapply (IH live); [|done|done]. intros c Hc. apply Hl in Hc as [d' Hc].
        rewrite since_clear_snoc. exists d'. set_solver.
      + eapply (IH live); [|done|done]. intros c Hc. apply Hl in Hc as [d' Hc]. rewrite since_clear_snoc. exists d'. set_solver.
      + eapply (IH []); [|done|done]. set_solver.
      + eapply (IH live); [|done|done]. intros c Hc. apply Hl in Hc as [d' Hc]. rewrite since_clear_snoc. exists d'. set_solver. }
  intros Hs es1 a es2 E. by eapply (H es [] []); [set_solver| |].
Qed.
Lemma ex_long_proper : proper ex_long.
Proof. split_and!; [by apply stale_free_ok|by apply stale_free_ok|done]. Qed.

(** * C51
    Volumes that live and were created since the last Clear have different ids. *)
Theorem C51_unique : ∀ (T Sh : Type) (os : list (op T Sh)) s, proper os → run os = Some s →
  (∀ a a' v v', g_pheap s !! Obj a = Some v → g_pheap s !! Obj a' = Some v' →
    (∃ d, ENew a d ∈ since_clear (map pev os)) → (∃ d, ENew a' d ∈ since_clear (map pev os)) → pv_id v = pv_id v' → a = a') ∧
  (∀ l l' v v', g_lheap s !! l = Some v → g_lheap s !! l' = Some v' →
    (∃ d, ENew l d ∈ since_clear (map lev os)) → (∃ d, ENew l' d ∈ since_clear (map lev os)) → lv_id v = lv_id v' → l = l').
Proof. exact @final_unique. Qed.
Print Assumptions C51_unique.
(** FindPlacedVolume(id): exactly the registered volumes, with the data they were created
    with; before closing it is the very object. *)
Theorem C51_placed : ∀ (T Sh : Type) (os : list (op T Sh)) s, proper os → run os = Some s → ∀ i,
  (∀ p, find_placed s i = Some p → ∃ a v, g_pheap s !! p = Some v ∧ pv_id v = i ∧
     registered (map pev os) a (pv_label v, pv_lv v, pv_tr v) i ∧ (closed (map pev os) = false → p = Obj a)) ∧
  (∀ a d, registered (map pev os) a d i → ∃ p v, find_placed s i = Some p ∧ g_pheap s !! p = Some v ∧
     (pv_label v, pv_lv v, pv_tr v) = d ∧ (closed (map pev os) = false → p = Obj a)) ∧
  (find_placed s i = None ↔ ¬ ∃ a d, registered (map pev os) a d i).
Proof. exact @final_placed. Qed.
Print Assumptions C51_placed.
Theorem C51_logical : ∀ (T Sh : Type) (os : list (op T Sh)) s, proper os → run os = Some s → ∀ i,
  (∀ l, find_logical s i = Some l ↔ ∃ d, registered (map lev os) l d i) ∧
  (∀ l d, registered (map lev os) l d i → ∃ v, g_lheap s !! l = Some v ∧ lv_id v = i ∧ (lv_label v, lv_shape v) = d ∧
     logical_volume_label s i = Some (Some d.1)) ∧
  ((¬ ∃ l d, registered (map lev os) l d i) → logical_volume_label s i = Some None).
Proof. exact @final_logical. Qed.
Print Assumptions C51_logical.
(** getPlacedVolumesCount() is the number of registered placed volumes. *)
Theorem C51_count : ∀ (T Sh : Type) (os : list (op T Sh)) s, proper os → forallb no_conv os = true → run os = Some s →
  ∃ ids, NoDup ids ∧ N.of_nat (length ids) = placed_count s ∧ ∀ i, i ∈ ids ↔ ∃ a d, registered (map pev os) a d i.
Proof. exact @final_count. Qed.
Print Assumptions C51_count.
(** Searching by label gives the volume with the smallest id, or null if there is none. *)
Theorem C51_placed_label : ∀ (T Sh : Type) (os : list (op T Sh)) s label, proper os → forallb no_conv os = true → run os = Some s →
  ∃ r, find_placed_label s label = Some r ∧
    match r with
    | None => ∀ a i lv tr, ¬ registered (map pev os) a (label, lv, tr) i
    | Some p => ∃ i lv tr a, find_placed s i = Some p ∧ registered (map pev os) a (label, lv, tr) i ∧
        ∀ a' i' lv' tr', registered (map pev os) a' (label, lv', tr') i' → i ≤ i'
    end.
Proof. exact @final_labels. Qed.
Print Assumptions C51_placed_label.
Theorem C51_logical_label : ∀ (T Sh : Type) (os : list (op T Sh)) s label, proper os → run os = Some s →
  ∃ r z, find_logical_label s label = Some r ∧ logical_volume_id s label = Some z ∧
    match r with
    | None => z = (-1)%Z ∧ ∀ l i u, ¬ registered (map lev os) l (label, u) i
    | Some l => ∃ i u, z = Z.of_N i ∧ registered (map lev os) l (label, u) i ∧
        ∀ l' i' u', registered (map lev os) l' (label, u') i' → i ≤ i'
    end.
Proof. exact @final_logical_labels. Qed.
Print Assumptions C51_logical_label.
(** Destroying a volume removes it and leaves the others. *)
Theorem C51_deregister_placed : ∀ (T Sh : Type) (os : list (op T Sh)) s a s',
  proper (os ++ [DelP a]) → run os = Some s → step s (DelP a) = Some s' →
  ∃ v, g_pheap s !! Obj a = Some v ∧ find_placed s' (pv_id v) = None ∧
    ∀ b d i, b ≠ a → registered (map pev os) b d i → find_placed s' i = find_placed s i ∧
      ∀ p, find_placed s i = Some p → p ≠ Obj a → g_pheap s' !! p = g_pheap s !! p.
Proof. exact @final_deregister. Qed.
Print Assumptions C51_deregister_placed.
Theorem C51_deregister_logical : ∀ (T Sh : Type) (os : list (op T Sh)) s l s',
  proper (os ++ [DelL l]) → run os = Some s → step s (DelL l) = Some s' →
  ∃ v, g_lheap s !! l = Some v ∧ find_logical s' (lv_id v) = None ∧
    ∀ l' d i, l' ≠ l → registered (map lev os) l' d i → find_logical s' i = Some l' ∧ g_lheap s' !! l' = g_lheap s !! l'.
Proof. exact @final_deregister_logical. Qed.
Print Assumptions C51_deregister_logical.
Example C51_example : proper ex_long ∧ forallb no_conv ex_long = true ∧
  (s ← run ex_long; Some (map (find_placed s) [0; 1; 2; 3], find_placed_label s 101, logical_volume_id s 12, logical_volume_id s 10,
     placed_count s)) =
  Some ([None; Some (Obj 7); Some (Obj 6); None], Some (Some (Obj 7)), Some 0%Z, Some (-1)%Z, 2) ∧
  (s ← run (take 16 ex_long); Some (map (find_placed s) [0; 1; 2; 3; 4; 5], map (find_logical s) [0; 1; 2])) =
  Some ([Some (Obj 0); Some (Obj 1); Some (Obj 2); Some (Obj 3); None; Some (Obj 4)], [Some 0; None; Some 2]) ∧
  (s ← run (take 13 ex_long); s' ← step s (DelP 4); Some (find_placed s' 4, find_placed s' 3)) = Some (None, Some (Obj 3)).
Proof. split_and!; [exact ex_long_proper|by vm_compute..]. Qed.
(** Without [no_stale]: a volume from before Clear() still deregisters its id, which by now
    belongs to another volume. *)
Theorem C51_stale_refuted :
  ∃ (os : list (op N N)) s s', run os = Some s ∧ registered (map pev os) 1 (8, 0, 0) 0 ∧ find_placed s 0 = Some (Obj 1) ∧
    step s (DelP 0) = Some s' ∧ find_placed s' 0 = None ∧ g_pheap s' !! Obj 1 = Some (PV 0 8 0 0 (-1)).
Proof.
  pose (os := [NewU 0 (Simple 7); NewL 0 10 0; NewP 0 9 0 0; Clear; NewP 1 8 0 0] : list (op N N)). exists os.
  assert (H : (s ← run os; s' ← step s (DelP 0); Some (find_placed s 0, find_placed s' 0, g_pheap s' !! Obj 1)) =
    Some (Some (Obj 1), None, Some (PV 0 8 0 0 (-1)))) by (by vm_compute).
  destruct (run os) as [s|] eqn:E; [|done]. cbn [mbind option_bind] in H. destruct (step s (DelP 0)) as [s'|] eqn:E'; [|done].
  injection H as H1 H2 H3. exists s, s'. split_and!; try assumption; try exact eq_refl.
  exists [EOther; EOther; ENew 0 (9, 0, 0); EClear], []. split_and!; [done|done|set_solver|set_solver|done].
Qed.
Print Assumptions C51_stale_refuted.
(** Convert(index) of an unknown index enters a null pointer; the search by label then
    dereferences it, and the count of volumes is wrong. *)
Theorem C51_convert_unknown_refuted :
  ∃ (os : list (op N N)) s, run os = Some s ∧ proper os ∧ find_placed_label s 100 = None ∧ placed_count s = 6.
Proof.
  exists (ex_build ++ [ConvI 77]).
  assert (H : (s ← run (ex_build ++ [ConvI 77]); Some (find_placed_label s 100, placed_count s)) = Some (None, 6)) by (by vm_compute).
  destruct (run (ex_build ++ [ConvI 77])) as [s|] eqn:E; [|done]. injection H as H1 H2. exists s. split_and!; try assumption; try exact eq_refl.
  split_and!; [by apply stale_free_ok|by apply stale_free_ok|done].
Qed.
Print Assumptions C51_convert_unknown_refuted.
(** A volume created after closing gets an id but is not found by it. *)
Theorem C51_after_closing_refuted :
  ∃ (os : list (op N N)) s v, run os = Some s ∧ proper os ∧ g_pheap s !! Obj 9 = Some v ∧ find_placed s (pv_id v) = None ∧
    find_placed_label s 109 = Some None.
Proof.
  pose (os := ex_build ++ [Close 5; NewP 9 109 0 1]). exists os.
  assert (H : (s ← run os; v ← g_pheap s !! Obj 9; Some (find_placed s (pv_id v), find_placed_label s 109)) = Some (None, Some None))
    by (by vm_compute).
  destruct (run os) as [s|] eqn:E; [|done]. cbn [mbind option_bind] in H. destruct (g_pheap s !! Obj 9) as [v|] eqn:E'; [|done].
  injection H as H1 H2. exists s, v. split_and!; try assumption; try exact eq_refl.
  split_and!; [by apply stale_free_ok|by apply stale_free_ok|done].
Qed.
Print Assumptions C51_after_closing_refuted.

(** * C52
    Closing keeps every volume at every path: id, label, logical volume, transformation, child id. *)
Theorem C52_hierarchy : ∀ (T Sh : Type) (os : list (op T Sh)) s fuel s', proper os → run os = Some s → close fuel s = Some s' →
  ∀ ks, node s' ks = node s ks.
Proof. exact @close_node. Qed.
Print Assumptions C52_hierarchy.
(** The placed volumes that Boolean and scaled shapes consist of are kept as well. *)
Theorem C52_parts : ∀ (T Sh : Type) (os : list (op T Sh)) s fuel s', proper os → run os = Some s → close fuel s = Some s' →
  ∀ u l, parts s u = Some l → Forall is_Some l → parts s' u = Some l ∧ kind_of <$> (g_uheap s' !! u) = kind_of <$> (g_uheap s !! u).
Proof. exact @close_parts. Qed.
Print Assumptions C52_parts.
(** In a hierarchy of registered volumes, every volume reached after closing is the element of
    the compact buffer at its own index: the conversions are inverse to each other. *)
Theorem C52_index : ∀ (T Sh : Type) (os : list (op T Sh)) s fuel s',
  proper os → run os = Some s → close fuel s = Some s' → whole s →
  ∀ w' ks p, g_world s' = Some w' → walk (daughters s') w' ks = Some p →
    ∃ i, to_index s' p = Some i ∧ to_placed s' i = Some p ∧ find_placed s' i = Some p.
Proof. exact @close_index. Qed.
Print Assumptions C52_index.
Theorem C52_index_back : ∀ (T Sh : Type) (os : list (op T Sh)) s fuel s',
  proper os → run os = Some s → close fuel s = Some s' →
  ∀ i, (∃ a d, registered (map pev os) a d i) → ∃ p, to_placed s' i = Some p ∧ to_index s' p = Some i.
Proof. exact @final_index_back. Qed.
Print Assumptions C52_index_back.
(** Closing stays inside the buffer iff no id is as large as the number of registered volumes. *)
Theorem C52_fits : ∀ (T Sh : Type) (os : list (op T Sh)) s fuel, proper os → forallb no_conv os = true → run os = Some s →
  is_Some (close fuel s) ↔ ∃ w, g_world s = Some w ∧ is_Some (max_depth (daughters s) fuel w) ∧
    is_Some (node_count (daughters s) fuel w) ∧ ∀ i p, find_placed s i = Some p → i < placed_count s.
Proof. exact @close_iff. Qed.
Print Assumptions C52_fits.
(** Every history that only builds a hierarchy can be closed, and its hierarchy is whole. *)
Theorem C52_build : ∀ (T Sh : Type) (os : list (op T Sh)) s fuel w kss,
  forallb builds os = true → N.of_nat (length os) < 4294967296 → run os = Some s → g_world s = Some w →
  depth_below (daughters s) w fuel → enumerates (daughters s) w (λ _, True) kss → N.of_nat (length kss) ≤ int_max →
  whole s ∧ is_Some (close fuel s).
Proof. exact @build_close. Qed.
Print Assumptions C52_build.
(** Convert(pointer) answers for the pointers from before closing. *)
Theorem C52_convert_old : ∀ (T Sh : Type) (os : list (op T Sh)) s fuel s', proper os → run os = Some s → close fuel s = Some s' →
  ∀ i p, find_placed s i = Some p → (convert_pointer s' p).2 = i.
Proof. exact @final_convert_old. Qed.
Print Assumptions C52_convert_old.
Example C52_example : proper ex_build ∧ forallb builds ex_build = true ∧
  (s ← run ex_build; s' ← close 5 s;
   Some (g_world s', daughters s' (Slot 0 0), node s' [1%nat], parts s 1, parts s' 1, to_placed s' 4, to_index s' (Slot 0 4), g_uheap s' !! 1)) =
  Some (Some (Slot 0 0), Some [Slot 0 3; Slot 0 4], Some (PV 4 103 2 504 1),
        Some [Some (PV 1 101 1 501 (-1)); Some (PV 2 102 1 502 (-1))],
        Some [Some (PV 1 101 1 501 (-1)); Some (PV 2 102 1 502 (-1))],
        Some (Slot 0 4), Some 4, Some (Boolean 2 (Slot 0 1) (Slot 0 2))).
Proof. split_and!; [exact ex_build_proper|done|by vm_compute]. Qed.
(** After one volume was destroyed and another created, closing writes outside the buffer. *)
Theorem C52_gap_refuted :
  ∃ (os : list (op N N)) s, run os = Some s ∧ proper os ∧ find_placed s 5 = Some (Obj 5) ∧ placed_count s = 5 ∧
    (∀ w, g_world s = Some w → max_depth (daughters s) 5 w = Some 2) ∧ close 5 s = None.
Proof.
  pose (os := take 9 ex_build ++ [NewP 4 103 2 504; PlaceD 0 (Obj 3); SetWorld (Obj 0); DelP 4; NewP 5 103 2 504; PlaceD 0 (Obj 5)]).
  exists os.
  assert (H : (s ← run os; w ← g_world s; Some (find_placed s 5, placed_count s, max_depth (daughters s) 5 w, (λ s', g_world s') <$> close 5 s)) =
    Some (Some (Obj 5), 5, Some 2, None)) by (by vm_compute).
  destruct (run os) as [s|] eqn:E; [|done]. cbn [mbind option_bind] in H. destruct (g_world s) as [w|] eqn:E'; [|done].
  injection H as H1 H2 H3 H4. exists s. split_and!; try assumption; try exact eq_refl.
  - split_and!; [by apply stale_free_ok|by apply stale_free_ok|done].
  - rewrite E'. by intros ? [= <-].
  - by destruct (close 5 s).
Qed.
Print Assumptions C52_gap_refuted.
(** Convert(Convert(i)) after closing is 0, not i: the map is filled with the pointers from
    before the compaction. *)
Theorem C52_convert_refuted :
  ∃ (os : list (op N N)) s s' p, run os = Some s ∧ proper os ∧ close 5 s = Some s' ∧ (convert_index s' 3).2 = Some p ∧
    (convert_pointer s' p).2 = 0.
Proof.
  exists ex_build.
  assert (H : (s ← run ex_build; s' ← close 5 s; p ← (convert_index s' 3).2; Some (convert_pointer s' p).2) = Some 0) by (by vm_compute).
  destruct (run ex_build) as [s|] eqn:E; [|done]. cbn [mbind option_bind] in H. destruct (close 5 s) as [s'|] eqn:E'; [|done].
  cbn [mbind option_bind] in H. destruct (convert_index s' 3).2 as [p|] eqn:E2; [|done]. injection H as H1. exists s, s', p.
  split_and!; try assumption; try exact eq_refl. exact ex_build_proper.
Qed.
Print Assumptions C52_convert_refuted.

(** * C53
    The counting visitor counts the paths from the world; visits end. *)
Theorem C53_count : ∀ (P : Type) (dau : P → option (list P)) fuel p kss,
  depth_below dau p fuel → (∀ ks q, walk dau p ks = Some q → is_Some (dau q)) →
  enumerates dau p (λ _, True) kss → N.of_nat (length kss) ≤ int_max →
  node_count dau fuel p = Some (N.of_nat (length kss)) ∧ is_Some (max_depth dau fuel p) ∧ is_Some (all_placed dau fuel p).
Proof. exact @final_visit_some. Qed.
Print Assumptions C53_count.
(** getMaxDepth() is the number of volumes on a longest path. *)
Theorem C53_depth : ∀ (P : Type) (dau : P → option (list P)) fuel p d, max_depth dau fuel p = Some d →
  (∀ ks, is_Some (walk dau p ks) → N.of_nat (length ks) + 1 ≤ d) ∧ ∃ ks, is_Some (walk dau p ks) ∧ d = N.of_nat (length ks) + 1.
Proof. exact @final_depth. Qed.
Print Assumptions C53_depth.
(** getAllPlacedVolumes lists one entry per path. *)
Theorem C53_placed : ∀ (P : Type) (dau : P → option (list P)) fuel p l, all_placed dau fuel p = Some l →
  ∃ kss, enumerates dau p (λ _, True) kss ∧ Forall2 (λ ks q, walk dau p ks = Some q) kss l.
Proof. exact @final_all_placed. Qed.
Print Assumptions C53_placed.
(** GetAllLogicalVolumes lists each logical volume of the hierarchy once. *)
Theorem C53_logical : ∀ (P : Type) (dau : P → option (list P)) (lvo : P → option N) fuel p l, all_logical dau lvo fuel p = Some l →
  NoDup l ∧ ∀ x, x ∈ l ↔ ∃ ks q, walk dau p ks = Some q ∧ lvo q = Some x.
Proof. exact @final_all_logical. Qed.
Print Assumptions C53_logical.
(** getAllPathForLogicalVolume gives one navigation state per path that ends in the logical
    volume; the state holds that path.  Depth at most 255, see C13. *)
Theorem C53_paths : ∀ (T : Type) (G : geo T) (lvo : N → N) lv fuel world d,
  max_depth (λ p, Some (g_dau G p)) fuel world = Some d → d ≤ 255 →
  ∃ cs kss, all_paths G lvo lv (N.to_nat d) fuel world = Some cs ∧ enumerates (λ p, Some (g_dau G p)) world (λ q, lvo q = lv) kss ∧
    Forall2 (λ ks st, ∃ t, trace (λ p, Some (g_dau G p)) world ks = Some t ∧ p_cur st = N.of_nat (length t) ∧
      ∀ i x, t !! i = Some x → nsp_at st (Z.of_nat i) = Some (Some x)) kss cs.
Proof. exact @final_paths. Qed.
Print Assumptions C53_paths.
(** GetNTotal() of the world's logical volume is the node count without the world. *)
Theorem C53_ntotal : ∀ (T : Type) (G : geo T) (lvo : N → N) (ldau : N → list N) fuel p n,
  (∀ q, ldau (lvo q) = g_dau G q) → node_count (λ p, Some (g_dau G p)) fuel p = Some n →
  n_total lvo ldau fuel (lvo p) = Some (n - 1) ∧ 0 < n.
Proof. exact @final_ntotal. Qed.
Print Assumptions C53_ntotal.
(** World 0 (logical 0) holds 1 and 2 (logical 1), whose logical volume holds 3 (logical 2) twice below 4 (logical 3). *)
Definition ex_ldau (l : N) : list N := match l with 0 => [1; 2; 4] | 1 => [3] | 3 => [5] | _ => [] end.
Definition ex_lvo (p : N) : N := match p with 0 => 0 | 1 | 2 => 1 | 3 => 2 | 4 => 3 | _ => 2 end.
Definition ex_geo : geo N := Geo (λ p, ex_ldau (ex_lvo p)) (λ _, 0) (λ _, false) (λ p, p).
Example C53_example :
  let dau := λ p, Some (g_dau ex_geo p) in
  node_count dau 3 0 = Some 7 ∧ max_depth dau 3 0 = Some 3 ∧ all_placed dau 3 0 = Some [0; 1; 3; 2; 3; 4; 5] ∧
  all_logical dau (λ p, Some (ex_lvo p)) 3 0 = Some [0; 1; 2; 3] ∧ n_total ex_lvo ex_ldau 3 0 = Some 6 ∧
  (cs ← all_paths ex_geo ex_lvo 2 3 3 0; Some (map (λ st, (p_cur st, p_vals st)) cs)) =
  Some [(3, [0; 1; 3; 0]); (3, [0; 2; 3; 0]); (3, [0; 4; 5; 0])].
Proof. cbv zeta. split_and!; by vm_compute. Qed.
