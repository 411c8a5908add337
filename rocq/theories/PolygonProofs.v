(** Lemmas on polygons: sides, stored order, hulls of convex polygons. *)
From Coq Require Import Reals Lra Lia Bool ZArith Psatz.
From stdpp Require Import base list list_numbers option numbers tactics.
From Verif Require Import Real3 BoxModel AABBModel PlanesModel PlanesProofs PolygonModel PolygonSpec.
Import stdpp.list.
Local Open Scope R_scope.

Lemma p2_eq (p q : p2) : fst p = fst q → snd p = snd q → p = q.
Proof. destruct p, q; cbn; congruence. Qed.
Lemma p2_dec (p q : p2) : p = q ∨ p ≠ q.
Proof.
  destruct (Req_dec (fst p) (fst q)); [|right; congruence]. destruct (Req_dec (snd p) (snd q)); [|right; congruence].
  left. by apply p2_eq.
Qed.
Lemma cross2_cyc a b c : cross2 a b c = cross2 b c a.
Proof. unfold cross2. ring. Qed.
Lemma cross2_swap a b c : cross2 b a c = - cross2 a b c.
Proof. unfold cross2. ring. Qed.
Lemma cross2_way a b p q t : cross2 a b (way p q t) = (1 - t) * cross2 a b p + t * cross2 a b q.
Proof. unfold cross2, way. cbn. ring. Qed.
Lemma cross2_l a b : cross2 a b a = 0.
Proof. unfold cross2. ring. Qed.
Lemma cross2_r a b : cross2 a b b = 0.
Proof. unfold cross2. ring. Qed.

(** Chains and sides *)
Lemma last_cons_default {A} (a : A) r d : List.last (a :: r) d = List.last r a.
Proof. revert a d. induction r as [|b r IH]; intros a d; [done|]. change (List.last (b :: r) d = List.last (b :: r) a). by rewrite !IH. Qed.
Lemma chain_snoc a l b : chain a (l ++ [b]) = chain a l ++ [(List.last l a, b)].
Proof. revert a. induction l as [|c l IH]; intros a; [done|]. cbn [chain app]. by rewrite IH, last_cons_default. Qed.
Lemma chain_rev a l b : chain b (rev l ++ [a]) = rev (map (λ s, (s.2, s.1)) (chain a (l ++ [b]))).
Proof.
  revert a. induction l as [|c l IH]; intros a; [done|]. cbn [rev app chain map fst snd].
  rewrite <- IH, <- app_assoc. cbn [app]. replace (rev l ++ [c; a]) with ((rev l ++ [c]) ++ [a]) by (by rewrite <- app_assoc).
  rewrite chain_snoc. f_equal. by rewrite List.last_last.
Qed.
Lemma sides_rev a r : sides (a :: rev r) = rev (map (λ s, (s.2, s.1)) (sides (a :: r))).
Proof. apply chain_rev. Qed.
Lemma chain_zip a l : chain a l = zip (a :: l) l.
Proof. revert a. induction l as [|b l IH]; intros a; [done|]. cbn [chain]. by rewrite IH. Qed.
Lemma zip_short {A B} (l : list A) (x : list A) (k : list B) : length l = length k → zip (l ++ x) k = zip l k.
Proof. revert k. induction l as [|a l IH]; intros [|b k] E; cbn in *; try done; [by destruct x|]. f_equal. apply IH. lia. Qed.
Lemma sides_zip pts : sides pts = zip pts (nexts pts).
Proof.
  destruct pts as [|a r]; [done|]. cbn [sides nexts]. rewrite chain_zip.
  change (a :: r ++ [a]) with ((a :: r) ++ [a]). apply zip_short. rewrite app_length. cbn. lia.
Qed.
Lemma length_nexts {A} (l : list A) : length (nexts l) = length l.
Proof. destruct l; [done|]. cbn. rewrite app_length. cbn. lia. Qed.
Lemma length_sides pts : length (sides pts) = length pts.
Proof. rewrite sides_zip, zip_with_length, length_nexts. lia. Qed.
Lemma nexts_lookup {A} (l : list A) i : (i < length l)%nat → nexts l !! i = l !! ((i + 1) mod length l)%nat.
Proof.
  destruct l as [|a r]; cbn [nexts length]; [lia|]. intros H. destruct (decide (i = length r)) as [->|Hn].
  - rewrite lookup_app_r, Nat.sub_diag by lia. rewrite Nat.add_1_r, Nat.mod_same by lia. done.
  - rewrite lookup_app_l by lia. rewrite Nat.mod_small by lia. by rewrite Nat.add_1_r.
Qed.
Lemma sides_in pts a b : In (a, b) (sides pts) ↔ ∃ i, (i < length pts)%nat ∧ pts !! i = Some a ∧ pts !! ((i + 1) mod length pts)%nat = Some b.
Proof.
  rewrite sides_zip, <- elem_of_list_In, elem_of_list_lookup. split.
  - intros (i & E). apply lookup_zip_with_Some in E as (x & y & E & E1 & E2). injection E as -> ->.
    pose proof (lookup_lt_Some _ _ _ E1). exists i. rewrite <- nexts_lookup by done. done.
  - intros (i & Hi & E1 & E2). exists i. rewrite <- nexts_lookup in E2 by done. apply lookup_zip_with_Some. eauto.
Qed.
Lemma sides_ends pts a b : In (a, b) (sides pts) → In a pts ∧ In b pts.
Proof.
  rewrite sides_in. intros (i & Hi & E1 & E2). split; apply elem_of_list_In; by eapply elem_of_list_lookup_2.
Qed.
Lemma prevs_cons {A} (a : A) r : prevs (a :: r) = List.last (a :: r) a :: removelast (a :: r).
Proof.
  unfold prevs. destruct (exists_last (l := a :: r)) as (l & z & E); [done|]. rewrite E, last_snoc, List.last_last. done.
Qed.
Definition side_edge (s : p2 * p2) : edge := mk_edge (snd s) (fst s).
Lemma chain_edges a r : zip_with mk_edge r (removelast (a :: r)) = map side_edge (chain a r).
Proof. revert a. induction r as [|b r IH]; intros a; [done|]. cbn [zip_with chain map]. change (removelast (a :: b :: r)) with (a :: removelast (b :: r)). cbn [zip_with]. by rewrite IH. Qed.
(** The edges the code makes: those of the sides, the last side first. *)
Lemma mk_edges_sides a r : mk_edges (a :: r) = side_edge (List.last r a, a) :: map side_edge (chain a r).
Proof. unfold mk_edges. rewrite prevs_cons. cbn [zip_with]. rewrite chain_edges, last_cons_default. done. Qed.
Lemma sides_split a r : sides (a :: r) = chain a r ++ [(List.last r a, a)].
Proof. cbn [sides]. apply chain_snoc. Qed.
Lemma mk_edges_perm vs : Permutation (mk_edges vs) (map side_edge (sides vs)).
Proof.
  destruct vs as [|a r]; [done|]. rewrite mk_edges_sides, sides_split, map_app. cbn [map]. by rewrite Permutation_app_comm.
Qed.
Lemma mk_edges_in vs e : In e (mk_edges vs) ↔ ∃ a b, In (a, b) (sides vs) ∧ e = mk_edge b a.
Proof.
  split.
  - intros H. eapply Permutation_in in H; [|apply mk_edges_perm]. apply in_map_iff in H as ([a b] & E & H). eauto.
  - intros (a & b & H & ->). eapply Permutation_in; [symmetry; apply mk_edges_perm|]. apply in_map_iff. by exists (a, b).
Qed.
Lemma length_mk_edges vs : length (mk_edges vs) = length vs.
Proof. rewrite (Permutation_length (mk_edges_perm vs)), map_length. apply length_sides. Qed.

(** The stored order *)
Lemma shoelace_app l k : fold_right (λ '(a, b) s, (fst a * snd b - snd a * fst b) + s) 0 (l ++ k : list (p2 * p2)) =
  fold_right (λ '(a, b) s, (fst a * snd b - snd a * fst b) + s) 0 l + fold_right (λ '(a, b) s, (fst a * snd b - snd a * fst b) + s) 0 k.
Proof. induction l as [|[a b] l IH]; cbn; [lra|]. rewrite IH. lra. Qed.
Lemma shoelace_rev a r : shoelace (a :: rev r) = - shoelace (a :: r).
Proof.
  unfold shoelace. rewrite sides_rev. generalize (sides (a :: r)). clear. intros l.
  induction l as [|[a b] l IH]; cbn [map rev fst snd fold_right]; [lra|]. rewrite shoelace_app, IH. cbn. lra.
Qed.
Lemma orientation_shoelace pts : orientation pts = shoelace pts.
Proof.
  unfold orientation, shoelace. rewrite <- sides_zip. generalize (sides pts). intros l.
  assert (G : ∀ (l : list (p2 * p2)) x, foldl (λ area '(p1, p2), area + (fst p1 * snd p2 - snd p1 * fst p2)) x l =
    x + fold_right (λ '(a, b) s, (fst a * snd b - snd a * fst b) + s) 0 l).
  { induction l0 as [|[a b] l0 IH]; intros x; cbn; [lra|]. rewrite IH. lra. }
  rewrite G. lra.
Qed.
Lemma vertex_index_1 n i : (0 <= i < n)%Z → (n < 2 ^ 62)%Z → vertex_index 1 n i = i.
Proof.
  intros Hi Hn. unfold vertex_index. rewrite (Z.mod_small 1) by lia. rewrite Z.mul_1_r, (Z.mod_small i) by lia.
  rewrite (Z.mod_small (i + n)) by lia. replace (i + n)%Z with (i + 1 * n)%Z by lia. rewrite Z.mod_add by lia. apply Z.mod_small. lia.
Qed.
Lemma vertex_index_m1 n i : (0 <= i < n)%Z → (n < 2 ^ 62)%Z → vertex_index (-1) n i = if decide (i = 0%Z) then 0%Z else (n - i)%Z.
Proof.
  intros Hi Hn. unfold vertex_index. rewrite Z.mul_mod_idemp_r by lia. rewrite Zplus_mod_idemp_l.
  rewrite (Z.mod_small (i * -1 + n)) by lia. case_decide.
  - subst. apply Z.mod_same. lia.
  - rewrite Z.mod_small by lia. lia.
Qed.
Definition clockwise (pts : list p2) : list p2 :=
  match pts with [] => [] | a :: r => if rgtb (shoelace pts) 0 then a :: rev r else pts end.
Lemma stored_clockwise pts : (Z.of_nat (length pts) < 2 ^ 62)%Z → stored pts = Some (clockwise pts).
Proof.
  intros Hn. unfold stored. rewrite orientation_shoelace. apply mapM_Some. apply Forall2_same_length_lookup_2.
  - rewrite seq_length. unfold clockwise. destruct pts as [|a r]; [done|]. destruct (rgtb _ 0); [|done]. cbn. by rewrite rev_length.
  - intros i x y Ex Ey. apply lookup_seq in Ex as [-> Hi]. cbn [Nat.add] in *. unfold clockwise in Ey.
    destruct pts as [|a r]; [cbn in Hi; lia|]. destruct (rgtb _ 0).
    + rewrite vertex_index_m1 by lia. case_decide as Hz.
      * assert (i = 0%nat) as -> by lia. done.
      * destruct i as [|i]; [lia|]. cbn in Ey. assert (Ey' : reverse r !! i = Some y) by (rewrite <- Ey; unfold reverse; by rewrite rev_alt). cbn [length] in *.
        rewrite reverse_lookup in Ey' by lia. replace (Z.to_nat (Z.of_nat (S (length r)) - Z.of_nat (S i))) with (S (length r - S i)) by lia. done.
    + rewrite vertex_index_1 by lia. rewrite Nat2Z.id. done.
Qed.
Lemma clockwise_perm pts : Permutation (clockwise pts) pts.
Proof. destruct pts as [|a r]; [done|]. unfold clockwise. destruct (rgtb _ 0); [|done]. by rewrite <- Permutation_rev. Qed.
Lemma clockwise_shoelace pts : shoelace (clockwise pts) = - Rabs (shoelace pts).
Proof.
  destruct pts as [|a r]; [unfold shoelace; cbn; rewrite Rabs_R0; lra|]. unfold clockwise. destruct (rgtb_spec (shoelace (a :: r)) 0).
  - rewrite shoelace_rev, Rabs_pos_eq by lra. done.
  - rewrite <- Rabs_Ropp, Rabs_pos_eq by lra. lra.
Qed.
(** The sides are the same up to direction. *)
Lemma clockwise_sides pts a b : In (a, b) (sides (clockwise pts)) → In (a, b) (sides pts) ∨ In (b, a) (sides pts).
Proof.
  destruct pts as [|c r]; [done|]. unfold clockwise. destruct (rgtb _ 0); [|by left]. rewrite sides_rev, <- in_rev, in_map_iff.
  intros ([x y] & E & H). cbn in E. injection E as -> ->. by right.
Qed.
Lemma sides_clockwise pts a b : In (a, b) (sides pts) → In (a, b) (sides (clockwise pts)) ∨ In (b, a) (sides (clockwise pts)).
Proof.
  destruct pts as [|c r]; [done|]. unfold clockwise. destruct (rgtb _ 0); [|by left]. rewrite sides_rev, <- !in_rev, !in_map_iff.
  intros H. right. by exists (a, b).
Qed.
Lemma area_shoelace vs : pg_area (mk_edges vs) = - / 2 * shoelace vs.
Proof.
  unfold pg_area, shoelace.
  assert (G : ∀ l x, foldl (λ area e, area + (e_x e * e_yj e - e_y e * e_xj e)) x l = x + fold_right (λ e s, (e_x e * e_yj e - e_y e * e_xj e) + s) 0 l).
  { induction l as [|e l IH]; intros x; cbn; [lra|]. rewrite IH. lra. }
  rewrite G. assert (E : fold_right (λ e s, (e_x e * e_yj e - e_y e * e_xj e) + s) 0 (mk_edges vs) = - fold_right (λ '(a, b) s, (fst a * snd b - snd a * fst b) + s) 0 (sides vs)); [|rewrite E; lra].
  assert (Pm : ∀ l k, Permutation l k → fold_right (λ e s, (e_x e * e_yj e - e_y e * e_xj e) + s) 0 l = fold_right (λ e s, (e_x e * e_yj e - e_y e * e_xj e) + s) 0 k).
  { intros l k H. induction H; cbn; lra. }
  rewrite (Pm _ _ (mk_edges_perm vs)). generalize (sides vs). induction l as [|[[ax ay] [bx by_]] l IH]; cbn; [lra|]. rewrite IH. lra.
Qed.
Lemma mk_tail_some kvs es : es ≠ [] → ∃ t, mk_tail kvs es = Some t ∧ length t = (buffer_size kvs (length es) - length es)%nat ∧
  ∀ i, (i < length t)%nat → t !! i = es !! ((length es + i) mod length es)%nat.
Proof.
  intros He. unfold mk_tail. assert (Hl : length es ≠ 0%nat) by (by destruct es).
  destruct (mapM (λ i, es !! (i mod length es)%nat) (seq (length es) (buffer_size kvs (length es) - length es))) as [t|] eqn:E.
  - exists t. split; [done|]. apply mapM_Some in E. pose proof (Forall2_length _ _ _ E) as L. rewrite seq_length in L. split; [done|].
    intros i Hi. destruct (lookup_lt_is_Some_2 t i Hi) as [y Ey]. rewrite Ey.
    eapply Forall2_lookup_r in E as (x & Ex & Exy); [|done]. apply lookup_seq in Ex as [-> _]. done.
  - exfalso. apply mapM_None in E. apply Exists_exists in E as (i & Hi & E). apply lookup_ge_None in E.
    pose proof (Nat.mod_upper_bound i (length es) Hl). lia.
Qed.
Lemma buffer_enough kvs n : (0 < kvs)%nat → ((n + kvs - 1) / kvs * kvs <= buffer_size kvs n)%nat.
Proof.
  intros Hk. unfold buffer_size. apply Nat.mul_le_mono_r. pose proof (Nat.div_mod n kvs ltac:(lia)) as D.
  pose proof (Nat.mod_upper_bound n kvs ltac:(lia)). destruct (decide (n mod kvs = 0)%nat) as [Z|Z].
  - replace (n + kvs - 1)%nat with (kvs - 1 + (n / kvs) * kvs)%nat by lia. rewrite Nat.div_add, Nat.div_small by lia. lia.
  - replace (n + kvs - 1)%nat with (n mod kvs - 1 + (n / kvs + 1) * kvs)%nat by nia. rewrite Nat.div_add, Nat.div_small by lia. lia.
Qed.
(** Init succeeds for every list of points: the exception is never thrown. *)
Lemma init_some kvs inf pts : pts ≠ [] → (Z.of_nat (length pts) < 2 ^ 62)%Z →
  ∃ t, mk_tail kvs (mk_edges (clockwise pts)) = Some t ∧
  pg_init kvs inf pts = Some (Polygon (mk_edges (clockwise pts)) t (calc_convexity (clockwise pts))
    (foldl (λ m v, Rmin (fst v) m) inf (clockwise pts)) (foldl (λ m v, Rmin (snd v) m) inf (clockwise pts))
    (foldl (λ m v, Rmax (fst v) m) (- inf) (clockwise pts)) (foldl (λ m v, Rmax (snd v) m) (- inf) (clockwise pts))).
Proof.
  intros Hp Hn. unfold pg_init. rewrite decide_False by done. rewrite stored_clockwise by done. cbn [mbind option_bind].
  destruct (mk_tail_some kvs (mk_edges (clockwise pts))) as (t & E & _).
  { intros E. apply (f_equal length) in E. rewrite length_mk_edges, (Permutation_length (clockwise_perm pts)) in E. by destruct pts. }
  exists t. rewrite E. split; [done|]. cbn [mbind option_bind]. rewrite area_shoelace, clockwise_shoelace.
  pose proof (Rabs_pos (shoelace pts)). destruct (rltb_spec (- / 2 * - Rabs (shoelace pts)) 0); [lra|done].
Qed.

(** Hulls *)
Lemma hull_right pts a b : (∀ v, In v pts → cross2 a b v <= 0) → ∀ p, hull pts p → cross2 a b p <= 0.
Proof. intros H p. induction 1; [by apply H|]. rewrite cross2_way. nra. Qed.
Lemma triangle_hull pts o b c p : In o pts → In b pts → In c pts → cross2 o b c < 0 →
  cross2 o b p <= 0 → cross2 b c p <= 0 → cross2 c o p <= 0 → hull pts p.
Proof.
  intros Io Ib Ic D H1 H2 H3. set (s := cross2 c o p + cross2 o b p).
  assert (E : cross2 o b c = cross2 b c p + cross2 c o p + cross2 o b p) by (unfold cross2; ring).
  destruct (Req_dec s 0) as [Z|Z].
  - assert (cross2 c o p = 0 ∧ cross2 o b p = 0) as [Z1 Z2] by (unfold s in Z; lra).
    assert (p = o) as ->; [|by constructor]. destruct o as [ox oy], b as [bx by_], c as [cx cy], p as [px py].
    unfold cross2 in *. cbn in *. apply p2_eq; cbn.
    + assert (((bx - ox) * (cy - oy) - (by_ - oy) * (cx - ox)) * (px - ox) = 0); [|apply Rmult_integral in H; lra].
      replace (((bx - ox) * (cy - oy) - (by_ - oy) * (cx - ox)) * (px - ox)) with
        ((bx - ox) * ((ox - cx) * (py - cy) - (oy - cy) * (px - cx)) + (cx - ox) * ((bx - ox) * (py - oy) - (by_ - oy) * (px - ox))) by ring.
      rewrite Z1, Z2. ring.
    + assert (((bx - ox) * (cy - oy) - (by_ - oy) * (cx - ox)) * (py - oy) = 0); [|apply Rmult_integral in H; lra].
      replace (((bx - ox) * (cy - oy) - (by_ - oy) * (cx - ox)) * (py - oy)) with
        ((by_ - oy) * ((ox - cx) * (py - cy) - (oy - cy) * (px - cx)) + (cy - oy) * ((bx - ox) * (py - oy) - (by_ - oy) * (px - ox))) by ring.
      rewrite Z1, Z2. ring.
  - assert (Hs : s < 0) by (unfold s in *; lra).
    assert (E2 : p = way o (way b c (cross2 o b p / s)) (s / cross2 o b c)).
    { unfold way. cbn. assert (cross2 o b c ≠ 0) by lra. apply p2_eq; cbn.
      - apply (Rmult_eq_reg_l (cross2 o b c)); [|done]. transitivity (cross2 o b c * fst o + s * (fst b - fst o) + cross2 o b p * (fst c - fst b)).
        + unfold s, cross2. ring.
        + field. done.
      - apply (Rmult_eq_reg_l (cross2 o b c)); [|done]. transitivity (cross2 o b c * snd o + s * (snd b - snd o) + cross2 o b p * (snd c - snd b)).
        + unfold s, cross2. ring.
        + field. done. }
    assert (Q : ∀ x y, x <= 0 → y < 0 → y <= x → 0 <= x / y <= 1).
    { intros x y Hx Hy Hxy. assert (Hi : / y < 0) by (by apply Rinv_lt_0_compat). split; [unfold Rdiv; nra|].
      apply (Rmult_le_reg_r (- y)); [lra|]. replace (x / y * - y) with (- x) by (field; lra). lra. }
    rewrite E2. apply hull_way; [by constructor| |apply Q; unfold s in *; lra].
    apply hull_way; [by constructor|by constructor|apply Q; unfold s in *; lra].
Qed.
Lemma fan o p : ∀ l a, cross2 o a p <= 0 → 0 <= cross2 o (List.last l a) p → l ≠ [] →
  ∃ b c, In (b, c) (chain a l) ∧ cross2 o b p <= 0 ∧ 0 <= cross2 o c p.
Proof.
  induction l as [|b l IH]; intros a Ha Hl Hn; [done|]. destruct (Rle_dec 0 (cross2 o b p)) as [Hb|Hb].
  - exists a, b. split; [by left|done].
  - destruct l as [|c l].
    + cbn in Hl. lra.
    + destruct (IH b) as (x & y & Hi & H); [lra|by rewrite last_cons_default in Hl|done|]. exists x, y. split; [by right|done].
Qed.
Lemma list_nodup {A} (l : list A) : List.NoDup l ↔ base.NoDup l.
Proof. symmetry. apply NoDup_ListNoDup. Qed.
Lemma chain_ends a l b c : In (b, c) (chain a l) → (b = a ∨ In b l) ∧ In c l.
Proof.
  revert a. induction l as [|d l IH]; intros a; cbn; [done|]. intros [E|H].
  - injection E as <- <-. auto.
  - apply IH in H as [[->|H] H2]; split; auto.
Qed.
(** A point to the right of all sides is in the hull. *)
Lemma right_hull pts p : convex_cw pts → (∀ a b, In (a, b) (sides pts) → cross2 a b p <= 0) → hull pts p.
Proof.
  intros (L & ND & C) H. destruct pts as [|o [|a [|c l]]]; cbn in L; try lia.
  rewrite sides_split in H, C. set (r := c :: l) in *.
  assert (Ha : cross2 o a p <= 0) by (apply H; cbn; by left).
  assert (Hz : 0 <= cross2 o (List.last (a :: r) o) p).
  { assert (cross2 (List.last (a :: r) o) o p <= 0) by (apply H, in_app_iff; right; by left). rewrite cross2_swap in H0. lra. }
  rewrite last_cons_default in Hz. destruct (fan o p r a Ha Hz) as (b & d & Hi & H1 & H2); [done|].
  pose proof (chain_ends _ _ _ _ Hi) as [Hb Hd]. assert (Ib : In b (a :: r)) by (destruct Hb as [->|Hb]; [by left|by right]).
  assert (Id : In d (a :: r)) by (by right). rewrite list_nodup in ND. apply NoDup_cons in ND as [ND _]. rewrite elem_of_list_In in ND.
  assert (Hs : In (b, d) (chain o (a :: r) ++ [(List.last (a :: r) o, o)])) by (apply in_app_iff; left; cbn; by right).
  apply (triangle_hull _ o b d); [by left|by right|by right| |done|by apply H|rewrite cross2_swap; lra].
  rewrite cross2_cyc. apply C; [done|by left| |]; intros ->; done.
Qed.
Lemma convex_right pts a b v : convex_cw pts → In (a, b) (sides pts) → In v pts → cross2 a b v <= 0.
Proof.
  intros (_ & _ & C) Hs Hv. destruct (p2_dec v a) as [->|]; [rewrite cross2_l; lra|]. destruct (p2_dec v b) as [->|]; [rewrite cross2_r; lra|].
  left. by apply C.
Qed.
Lemma hull_iff pts p : convex_cw pts → hull pts p ↔ (∀ a b, In (a, b) (sides pts) → cross2 a b p <= 0).
Proof.
  intros C. split; [|by apply right_hull]. intros H a b Hs. apply (hull_right pts); [|done]. intros v Hv. by eapply convex_right.
Qed.
(** In the hull and on the line of a side is on the side. *)
Lemma hull_side pts a b p : convex_cw pts → In (a, b) (sides pts) → hull pts p → cross2 a b p < 0 ∨ on_side a b p.
Proof.
  intros C Hs. induction 1 as [v Hv|p q t Hp IHp Hq IHq Ht].
  - destruct (p2_dec v a) as [->|]; [right; exists 0; split; [lra|]; apply p2_eq; cbn; ring|].
    destruct (p2_dec v b) as [->|]; [right; exists 1; split; [lra|]; apply p2_eq; cbn; ring|]. left. by apply C.
  - assert (Sn : ∀ x, on_side a b x → cross2 a b x = 0). { intros x (s & _ & ->). rewrite cross2_way, cross2_l, cross2_r. ring. }
    destruct (Req_dec t 0) as [->|]; [replace (way p q 0) with p by (apply p2_eq; cbn; ring); done|].
    destruct (Req_dec t 1) as [->|]; [replace (way p q 1) with q by (apply p2_eq; cbn; ring); done|].
    rewrite cross2_way. destruct IHp as [Hp1|Hp1], IHq as [Hq1|Hq1].
    + left. nra.
    + left. rewrite (Sn q) by done. nra.
    + left. rewrite (Sn p) by done. nra.
    + right. destruct Hp1 as (s & Hs1 & ->), Hq1 as (u & Hu & ->). exists (s + t * (u - s)). split; [nra|]. apply p2_eq; cbn; ring.
Qed.
Lemma inner_iff pts p : convex_cw pts → inner pts p ↔ (∀ a b, In (a, b) (sides pts) → cross2 a b p < 0).
Proof.
  intros C. unfold inner. split.
  - intros [Hh Hb] a b Hs. destruct (hull_side pts a b p C Hs Hh); [done|]. exfalso. apply Hb. by exists a, b.
  - intros H. split.
    + apply hull_iff; [done|]. intros a b Hs. left. by apply H.
    + intros (a & b & Hs & (t & _ & ->)). specialize (H a b Hs). rewrite cross2_way, cross2_l, cross2_r in H. lra.
Qed.
Lemma border_hull pts p : border pts p → hull pts p.
Proof. intros (a & b & Hs & (t & Ht & ->)). apply sides_ends in Hs as [Ha Hb]. apply hull_way; [by constructor|by constructor|done]. Qed.
Lemma border_iff pts p : convex_cw pts → border pts p ↔ hull pts p ∧ ∃ a b, In (a, b) (sides pts) ∧ cross2 a b p = 0.
Proof.
  intros C. split.
  - intros H. split; [by apply border_hull|]. destruct H as (a & b & Hs & (t & _ & ->)). exists a, b. split; [done|]. rewrite cross2_way, cross2_l, cross2_r. ring.
  - intros (Hh & a & b & Hs & E). exists a, b. split; [done|]. destruct (hull_side pts a b p C Hs Hh); [lra|done].
Qed.
Lemma convex_proper pts : convex_cw pts → proper_sides pts.
Proof.
  intros (L & ND & _) a b H E. subst b. apply sides_in in H as (i & Hi & E1 & E2). rewrite list_nodup in ND.
  pose proof (NoDup_lookup _ _ _ _ ND E1 E2) as E. destruct (decide (i + 1 = length pts)%nat) as [El|El].
  - rewrite El, Nat.mod_same in E by lia. lia.
  - rewrite Nat.mod_small in E by lia. lia.
Qed.
(** Convex polygons turn the same way at every corner. *)
Lemma convexity_true pts : convex_cw pts → calc_convexity pts = true.
Proof.
  intros C. pose proof C as (L & ND & Cc). unfold calc_convexity.
  assert (G : ∀ l, (∀ t, In t l → turn_sign t.1 t.2.1 t.2.2 = (-1)%Z) → ∀ c, foldl (λ c '(p, (q, r)), (c + turn_sign p q r)%Z) c l = (c - Z.of_nat (length l))%Z).
  { induction l as [|[p [q r]] l IH]; intros H c; cbn [foldl length]; [lia|]. rewrite IH by (intros; apply H; by right).
    assert (Et : turn_sign p q r = (-1)%Z) by (apply (H (p, (q, r))); by left). rewrite Et. lia. }
  rewrite G.
  - rewrite !zip_with_length, !length_nexts. apply Z.eqb_eq. lia.
  - intros [p [q r]] Hi. cbn [fst snd]. apply elem_of_list_In, elem_of_list_lookup in Hi as (i & E).
    apply lookup_zip_with_Some in E as (x & [y z] & E & E1 & E2). injection E as -> -> ->.
    apply lookup_zip_with_Some in E2 as (x' & y' & E & E2 & E3). injection E as -> ->. pose proof (lookup_lt_Some _ _ _ E1) as Hi.
    rewrite nexts_lookup in E2 by done. rewrite nexts_lookup, length_nexts in E3 by (by rewrite length_nexts).
    assert (Hm : ((i + 1) mod length pts < length pts)%nat) by (apply Nat.mod_upper_bound; lia).
    rewrite nexts_lookup in E3 by done. rewrite list_nodup in ND.
    assert (Cr : cross2 x x' y' < 0).
    { apply Cc; [apply sides_in; eauto|apply elem_of_list_In; by eapply elem_of_list_lookup_2| |]; intros ->.
      - pose proof (NoDup_lookup _ _ _ _ ND E1 E3) as E. destruct (decide (i + 1 = length pts)%nat) as [El|El].
        + rewrite El, Nat.mod_same, Nat.mod_small in E by lia. lia.
        + rewrite (Nat.mod_small (i + 1)) in E by lia. destruct (decide (i + 1 + 1 = length pts)%nat) as [El2|El2]; [rewrite El2, Nat.mod_same in E by lia; lia|]. rewrite Nat.mod_small in E by lia. lia.
      - pose proof (NoDup_lookup _ _ _ _ ND E2 E3) as E. destruct (decide ((i + 1) mod length pts + 1 = length pts)%nat) as [El|El].
        + rewrite El, Nat.mod_same in E by lia. lia.
        + rewrite (Nat.mod_small ((i + 1) mod length pts + 1)) in E by lia. lia. }
    unfold turn_sign. cbn [fst snd]. destruct (rltb_spec ((fst x' - fst x) * (snd y' - snd x') - (snd x' - snd x) * (fst y' - fst x')) 0) as [|Hn]; [done|].
    exfalso. apply Hn. unfold cross2 in Cr. lra.
Qed.
(** The signed area of a convex clockwise polygon is negative. *)
Lemma shoelace_fan o : ∀ l a, fold_right (λ '(a, b) s, (fst a * snd b - snd a * fst b) + s) 0 (chain a l) =
  fold_right (λ '(b, c) s, cross2 o b c + s) 0 (chain a l) + (fst o * snd (List.last l a) - snd o * fst (List.last l a)) - (fst o * snd a - snd o * fst a).
Proof.
  induction l as [|b l IH]; intros a; [cbn; lra|]. cbn [chain fold_right]. rewrite IH, last_cons_default. unfold cross2. lra.
Qed.
Lemma convex_shoelace pts : convex_cw pts → shoelace pts < 0.
Proof.
  intros (L & ND & C). destruct pts as [|o [|a [|c l]]]; cbn in L; try lia. unfold shoelace. cbn [sides].
  rewrite (shoelace_fan o). rewrite List.last_last. cbn [app chain fold_right].
  assert (Hn : ∀ k, (∀ s, In s k → cross2 o s.1 s.2 <= 0) → fold_right (λ '(b, c) s, cross2 o b c + s) 0 k <= 0).
  { induction k as [|[b d] k IH]; intros H; cbn; [lra|]. pose proof (H (b, d) ltac:(by left)) as Hb. cbn in Hb. specialize (IH ltac:(intros; apply H; by right)). lra. }
  assert (Hx : ∀ b d, In (b, d) (sides (o :: a :: c :: l)) → cross2 o b d <= 0).
  { intros b d Hs. rewrite cross2_cyc. apply (convex_right (o :: a :: c :: l)); [done|done|by left]. }
  specialize (Hn (chain c (l ++ [o]))).
  assert (cross2 o a c < 0).
  { rewrite list_nodup in ND. apply NoDup_cons in ND as [N1 ND]. apply NoDup_cons in ND as [N2 _]. rewrite elem_of_list_In in N1. rewrite cross2_cyc.
    apply C; [cbn; auto|by left| |]; intros E; apply N1; rewrite E; cbn; auto. }
  assert (fold_right (λ '(b, c) s, cross2 o b c + s) 0 (chain c (l ++ [o])) <= 0).
  { apply Hn. intros [b d] Hi. apply Hx. cbn. auto. }
  assert (cross2 o o a = 0) by (unfold cross2; ring). lra.
Qed.
Lemma ccw_reverse a r : convex_ccw (a :: r) → convex_cw (a :: rev r).
Proof.
  intros (L & ND & C). split; [by cbn in *; rewrite rev_length|]. split.
  - rewrite list_nodup in *. rewrite <- Permutation_rev. done.
  - intros x y v Hs Hv Hx Hy. rewrite sides_rev, <- in_rev, in_map_iff in Hs. destruct Hs as ([p q] & E & Hs). cbn in E. injection E as <- <-.
    rewrite cross2_swap. assert (0 < cross2 p q v); [|lra]. apply C; [done| |done|done]. cbn in *. by rewrite <- in_rev in Hv.
Qed.
Lemma cw_clockwise pts : convex_cw pts → clockwise pts = pts.
Proof. intros C. pose proof (convex_shoelace _ C). destruct pts as [|a r]; [done|]. unfold clockwise. destruct (rgtb_spec (shoelace (a :: r)) 0); [lra|done]. Qed.
Lemma ccw_clockwise a r : convex_ccw (a :: r) → clockwise (a :: r) = a :: rev r.
Proof.
  intros C. apply ccw_reverse in C as C'. pose proof (convex_shoelace _ C') as H. rewrite shoelace_rev in H. unfold clockwise.
  destruct (rgtb_spec (shoelace (a :: r)) 0); [done|lra].
Qed.
Lemma convex_clockwise pts : convex_cw pts ∨ convex_ccw pts → convex_cw (clockwise pts).
Proof.
  intros [C|C]; [by rewrite cw_clockwise|]. destruct pts as [|a r]; [by destruct C as [C _]; cbn in C; lia|]. rewrite ccw_clockwise by done. by apply ccw_reverse.
Qed.
Lemma hull_perm pts qs p : Permutation pts qs → hull pts p → hull qs p.
Proof. intros P. induction 1; [|by constructor]. apply hull_corner. by eapply Permutation_in. Qed.
Lemma hull_clockwise pts p : hull (clockwise pts) p ↔ hull pts p.
Proof. split; apply hull_perm; [apply clockwise_perm|symmetry; apply clockwise_perm]. Qed.
Lemma on_side_swap a b p : on_side a b p → on_side b a p.
Proof. intros (t & Ht & ->). exists (1 - t). split; [lra|]. apply p2_eq; cbn; ring. Qed.
Lemma border_clockwise pts p : border (clockwise pts) p ↔ border pts p.
Proof.
  split; intros (a & b & Hs & H).
  - apply clockwise_sides in Hs as [Hs|Hs]; [by exists a, b|]. exists b, a. split; [done|by apply on_side_swap].
  - apply sides_clockwise in Hs as [Hs|Hs]; [by exists a, b|]. exists b, a. split; [done|by apply on_side_swap].
Qed.
Lemma inner_clockwise pts p : inner (clockwise pts) p ↔ inner pts p.
Proof. unfold inner. by rewrite hull_clockwise, border_clockwise. Qed.
Lemma proper_clockwise pts : proper_sides pts → proper_sides (clockwise pts).
Proof. intros H a b Hs. apply clockwise_sides in Hs as [Hs|Hs]; [by apply H|]. intros E. by apply (H b a). Qed.
