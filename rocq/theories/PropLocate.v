(** Properties C31, C64: point location and relocation through the hierarchy. *)
From stdpp Require Import list option.
From Coq Require Import NArith Lia Reals.
From Verif Require Import Real3 AABBModel AABBSpec BVHModel BVHSpec PropBVH LocateModel LocateSpec LocateProofs.

(** A small geometry: 0 contains 1 and 2, 1 contains 3; points are numbers in the frame of 0, [1] covers 0-9, [2] 10-19, [3] 0-4. *)
Definition g_dau (v : N) : list N := if (v =? 0)%N then [1; 2]%N else if (v =? 1)%N then [3]%N else [].
Definition g_cont (v p : N) : bool :=
  (if v =? 0 then p <? 30 else if v =? 1 then p <? 10 else if v =? 2 then (9 <? p) && (p <? 20) else if v =? 3 then p <? 5 else false)%N.
Definition g_small (l : N → option (locator N)) : geom N := Geom g_dau g_cont (λ _ p, p) (λ _ p, p) (λ _, false) l.
Definition g_loc : geom N := g_small (λ _, Some (simple_locator (g_small (λ _, None)))).
Definition g_h (v : N) : nat := if (v =? 0)%N then 2 else if (v =? 1)%N then 1 else 0.
Lemma g_dau_in v d : d ∈ g_dau v → (v = 0 ∧ d = 1 ∨ v = 0 ∧ d = 2 ∨ v = 1 ∧ d = 3)%N.
Proof. unfold g_dau. destruct (N.eqb_spec v 0), (N.eqb_spec v 1); rewrite ?elem_of_cons, ?elem_of_nil; intuition. Qed.
Lemma g_height l : height (g_small l) g_h.
Proof. intros v d Hd%g_dau_in. intuition; subst; cbn; lia. Qed.
Lemma g_locators_ok : locators_ok g_loc ∧ all_locators g_loc.
Proof. split; [|by eexists]. intros v L [= <-]. exact (simple_ok g_loc v). Qed.
Lemma g_sane : sane g_loc.
Proof.
  split; [done|]. split.
  - intros v d d' p Hd%g_dau_in Hd'%g_dau_in. intuition; subst; cbn in *; rewrite ?andb_true_iff, ?N.ltb_lt in *; try done; lia.
  - intros v d p Hd%g_dau_in. intuition; subst; cbn in *; rewrite ?andb_true_iff, ?N.ltb_lt in *; lia.
Qed.

(** C31 *)
Theorem C31_locate :
  ∀ (pt : Type) (G : geom pt) h fuel vol p path top, height G h → locators_ok G → all_locators G → (h vol < fuel)%nat →
    match locate_global G fuel vol p path top with
    | Some (None, path') => top = true ∧ cont G vol p = false ∧ path' = path
    | Some (Some w, path') => (top = true → cont G vol p = true) ∧ located G any vol p path path' ∧ head path' = Some w
    | None => False
    end.
Proof.
  intros pt G h fuel vol p path top Hh Hl Ha Hf. unfold locate_global. destruct (top && _) eqn:E.
  - apply andb_true_iff in E as [-> E]. by apply negb_true_iff in E.
  - destruct (down_ok G h fuel vol p path Hh Hl Ha Hf) as (path' & -> & HL). cbn [mbind option_bind].
    pose proof HL as (ds & w & q & -> & Hc & _). rewrite (chain_last _ _ _ _ _ _ _ path Hc). split; [|done].
    intros ->. by rewrite andb_true_l, negb_false_iff in E.
Qed.
Print Assumptions C31_locate.
Theorem C31_locate_excluding :
  ∀ (pt : Type) (G : geom pt) h fuel vol e p path top, height G h → locators_ok G → (h vol < fuel)%nat →
    match locate_global_excl G fuel vol e p path top with
    | Some (None, path') => top = true ∧ cont G vol p = false ∧ path' = path
    | Some (Some w, path') => (top = true → cont G vol p = true) ∧ located G (not_excl e) vol p path path' ∧ head path' = Some w
    | None => False
    end.
Proof.
  intros pt G h fuel vol e p path top Hh Hl Hf. unfold locate_global_excl. destruct (top && _) eqn:E.
  - apply andb_true_iff in E as [-> E]. by apply negb_true_iff in E.
  - destruct (down_excl_ok G h fuel e vol vol p path Hh Hl Hf ltac:(by left)) as (w & q & ds & -> & Hc & Hd). cbn [mbind option_bind].
    split; [intros ->; by rewrite andb_true_l, negb_false_iff in E|]. split; [|by eapply chain_last]. by exists ds, w, q.
Qed.
Print Assumptions C31_locate_excluding.
(** The same functions of BVHNavigator; the volume [e] is left out among the daughters of [vol] only. *)
Theorem C31_bvh_locate :
  ∀ (pt : Type) (G : geom pt) h fuel vol e p path top, height G h → locators_ok G → all_locators G → (h vol < fuel)%nat →
    match bvh_locate_global G fuel vol p path top e with
    | Some (None, path') => top = true ∧ cont G vol p = false ∧ path' = path
    | Some (Some w, path') => (top = true → cont G vol p = true) ∧ head path' = Some w ∧
        ((path' = vol :: path ∧ deepest G (not_excl e) vol p) ∨
         ∃ d, d ∈ dau G vol ∧ Some d ≠ e ∧ cont G d (to_local G d p) = true ∧ located G any d (to_local G d p) (vol :: path) path')
    | None => False
    end.
Proof.
  intros pt G h fuel vol e p path top Hh Hl Ha Hf. unfold bvh_locate_global. destruct (top && _) eqn:E.
  - apply andb_true_iff in E as [-> E]. by apply negb_true_iff in E.
  - destruct (down_bvh_first G h fuel e vol p path Hh Hl Ha Hf) as (path' & -> & HL). cbn [mbind option_bind].
    assert (∃ w, head path' = Some w) as [w Hw].
    { destruct HL as [[-> _]|(d & _ & _ & _ & ds & w & q & -> & Hc & _)]; [by eexists|]. exists w. by eapply chain_last. }
    rewrite Hw. split; [intros ->; by rewrite andb_true_l, negb_false_iff in E|]. done.
Qed.
Print Assumptions C31_bvh_locate.
Theorem C31_bvh_locate_excluding :
  ∀ (pt : Type) (G : geom pt) h fuel vol e p path top, height G h → locators_ok G → all_locators G → (h vol < fuel)%nat →
    match bvh_locate_global_excl G fuel vol e p path top with
    | Some (None, path') => top = true ∧ cont G vol p = false ∧ path' = path
    | Some (Some w, path') => (top = true → cont G vol p = true) ∧ located G (not_excl e) vol p path path' ∧ head path' = Some w
    | None => False
    end.
Proof.
  intros pt G h fuel vol e p path top Hh Hl Ha Hf. unfold bvh_locate_global_excl. destruct (top && _) eqn:E.
  - apply andb_true_iff in E as [-> E]. by apply negb_true_iff in E.
  - destruct (down_bvh_excl_ok G h fuel e vol p path Hh Hl Ha Hf) as (w & q & ds & -> & Hc & Hd). cbn [mbind option_bind].
    split; [intros ->; by rewrite andb_true_l, negb_false_iff in E|]. split; [|by eapply chain_last]. by exists ds, w, q.
Qed.
Print Assumptions C31_bvh_locate_excluding.
(** The full statement of C31_locate without [all_locators]; missing: the last volume may have a daughter containing the point. *)
Theorem C31_no_locator_partial :
  ∀ (pt : Type) (G : geom pt) h fuel vol p path, height G h → locators_ok G → (h vol < fuel)%nat →
    ∃ ds w q, locate_global G fuel vol p path false = Some (Some w, rev ds ++ vol :: path) ∧ chain G any vol p ds w q.
Proof.
  intros pt G h fuel vol p path Hh Hl Hf. unfold locate_global. cbn [andb]. destruct (down_sound G h fuel vol p path Hh Hl Hf) as (ds & w & q & -> & Hc).
  exists ds, w, q. cbn [mbind option_bind]. by rewrite (chain_last _ _ _ _ _ _ _ path Hc).
Qed.
Print Assumptions C31_no_locator_partial.
(** Without a level locator the search stops after one level. *)
Theorem C31_no_locator_refuted :
  ¬ (∀ (G : geom N) h fuel vol p path', height G h → locators_ok G → (h vol < fuel)%nat →
     locate_global G fuel vol p [] true = Some (head path', path') → path' ≠ [] → located G any vol p [] path').
Proof.
  intros H. assert (located (g_small (λ _, None)) any 0%N 3%N [] [1; 0]%N) as (ds & w & q & Hp & Hc & Hd).
  { apply (H _ g_h 5%nat); [apply g_height|done|by vm_compute; lia|by vm_compute|done]. }
  apply (f_equal (@rev N)) in Hp. rewrite rev_app_distr, rev_involutive in Hp. injection Hp as <-.
  inversion Hc as [|? ? ? ? ? ? _ _ _ Hc']; subst. inversion Hc'; subst. specialize (Hd 3%N ltac:(by left) I). done.
Qed.
Print Assumptions C31_no_locator_refuted.
(** The level locators that satisfy the contract. *)
Theorem C31_simple_locator : ∀ (pt : Type) (G : geom pt) v, locator_ok G (simple_locator G) v.
Proof. intros. apply simple_ok. Qed.
Print Assumptions C31_simple_locator.
Theorem C31_abbox_locator : ∀ (pt : Type) (G : geom pt) inbox v,
  (∀ p k d, dau G v !! k = Some d → cont G d (to_local G d p) = true → inbox v k p = true) → locator_ok G (abbox_locator G inbox) v.
Proof. intros. by apply abbox_ok. Qed.
Print Assumptions C31_abbox_locator.
Theorem C31_assembly_locator : ∀ (pt : Type) (G : geom pt) bbox h fuel v,
  height G h → assemblies G bbox → (h v < fuel)%nat → locator_ok G (asm_locator G bbox fuel) v.
Proof. intros. by eapply asm_ok. Qed.
Print Assumptions C31_assembly_locator.
(* BVHLevelLocator.h:44-79: the functions are BVH::LevelLocate on the BVH of the volume *)
Definition bvh_find (G : geom v3) (bs : N → bvh) (lim : nat) (v : N) (e : option N) (p : v3) : option (N * v3) :=
  match level_locate (bs v) (dau G v) p (pcont G) e lim with Some r => r | None => None end.
Definition bvh_locator (G : geom v3) (bs : N → bvh) (lim : nat) : locator v3 :=
  Locator (λ v p, match bvh_find G bs lim v None p with Some (d, q) => Some ([d], q) | None => None end) (bvh_find G bs lim).
Theorem C31_bvh_locator : ∀ (G : geom v3) bs d lim v, bvh_ok (bs v) d → length (dau G v) = length (b_aabbs (bs v)) → (S d ≤ lim)%nat →
  (∀ x bx p, daughter (bs v) (dau G v) x bx → cont G x (to_local G x p) = true → in_box bx p) → locator_ok G (bvh_locator G bs lim) v.
Proof.
  intros G bs d lim v Hb Hlen Hlim Hbox.
  assert (∀ e p, match bvh_find G bs lim v e p with
    | Some (x, q) => x ∈ dau G v ∧ Some x ≠ e ∧ q = to_local G x p ∧ cont G x q = true
    | None => deepest G (not_excl e) v p end) as H.
  { intros e p. destruct (C24_locate (bs v) d (dau G v) p (pcont G) e Hb Hlen) as (r & Hr & Hm).
    { intros x bx q Hd Hq. apply (Hbox x bx p Hd). apply pcont_spec in Hq as [-> Hq]. done. }
    unfold bvh_find. rewrite (Hr lim Hlim). destruct r as [[x q]|].
    - destruct Hm as (? & ? & Hp). apply pcont_spec in Hp. naive_solver.
    - intros x Hx He. apply pcont_None. by apply Hm. }
  split; [|split; [|split]]; cbn.
  - intros p ds q. specialize (H None p). destruct (bvh_find G bs lim v None p) as [[x q']|]; [|done]. intros [= <- <-].
    destruct H as (? & ? & -> & ?). split; [done|]. exists x. by repeat constructor.
  - intros p. specialize (H None p). destruct (bvh_find G bs lim v None p) as [[x q']|]; [done|]. intros _ x Hx _. by apply H.
  - intros e p x q E. specialize (H e p). by rewrite E in H.
  - intros e p E. specialize (H e p). by rewrite E in H.
Qed.
Print Assumptions C31_bvh_locator.
(** A volume with daughters but without BVH: null pointer. *)
Theorem C31_missing_bvh_refuted : ∀ (pt : Type) (G : geom pt) fuel vol p path e,
  dau G vol ≠ [] → loc G vol = None → bvh_locate_global G fuel vol p path false e = None.
Proof. intros pt G [|f] vol p path e Hd Hl; [done|]. unfold bvh_locate_global. cbn. rewrite Hl. by destruct (dau G vol). Qed.
Print Assumptions C31_missing_bvh_refuted.
Example C31_example : height g_loc g_h ∧ locators_ok g_loc ∧ all_locators g_loc ∧
  locate_global g_loc 5 0%N 3%N [] true = Some (Some 3%N, [3; 1; 0]%N) ∧ locate_global g_loc 5 0%N 40%N [] true = Some (None, []) ∧
  locate_global_excl g_loc 5 0%N (Some 3%N) 3%N [] true = Some (Some 1%N, [1; 0]%N) ∧
  bvh_locate_global g_loc 5 0%N 3%N [] true (Some 3%N) = Some (Some 3%N, [3; 1; 0]%N).
Proof. split; [apply g_height|]. split; [apply g_locators_ok|]. split; [apply g_locators_ok|]. by vm_compute. Qed.
Example C31_assembly_example : assemblies (Geom g_dau (λ v p, if (v =? 1)%N then (p <? 5)%N else g_cont v p) (λ _ p, p) (λ _ p, p) (λ v, (v =? 1)%N) (λ _, None) : geom N) (λ _ p, (p <? 10)%N).
Proof.
  intros a p. cbn. intros ->%N.eqb_eq. cbn. rewrite !N.ltb_lt. split; [intros; split; [lia|]|].
  - exists 3%N. split; [by left|]. cbn. rewrite N.ltb_lt. lia.
  - intros (_ & d & H & Hc). apply elem_of_list_singleton in H as ->. cbn in Hc. rewrite N.ltb_lt in Hc. lia.
Qed.

(** C64 *)
Theorem C64_relocate :
  ∀ (pt : Type) (G : geom pt) h fuel world path g, height G h → locators_ok G → all_locators G → sane G → asm G world = false →
    nested G world path → (h world < fuel)%nat →
    relocate G fuel (local G path g) path = locate_global G fuel world g [] true.
Proof. intros. by eapply relocate_ok. Qed.
Print Assumptions C64_relocate.
Theorem C64_same_path :
  ∀ (pt : Type) (G : geom pt) h fuel world path g, height G h → locators_ok G → all_locators G → sane G → asm G world = false →
    nested G world path → (h world < fuel)%nat →
    ∃ b path', has_same_path G fuel (local G path g) path = Some (b, path') ∧
      (b = true ↔ ∃ r, locate_global G fuel world g [] true = Some (r, path)).
Proof.
  intros pt G h fuel world path g Hh Hl Ha Hs Hw Hn Hf. unfold has_same_path. rewrite (relocate_ok G h fuel world path g); try done.
  pose proof (C31_locate pt G h fuel world g [] true Hh Hl Ha Hf) as H. destruct (locate_global G fuel world g [] true) as [[r path']|]; [|done].
  cbn [mbind option_bind]. eexists _, _. split; [done|]. rewrite bool_decide_eq_true. split; [intros <-; by eexists|]. by intros (? & [= _ <-]).
Qed.
Print Assumptions C64_same_path.
(** Leaving a volume: it is never part of the result, whatever the geometry. *)
Theorem C64_leave :
  ∀ (pt : Type) (G : geom pt) h fuel world entry rest p, height G h → locators_ok G → nested G world (entry :: rest) → (h world < fuel)%nat →
    ∃ c path', relocate_different G fuel p (entry :: rest) = Some (c, path') ∧ entry ∉ path' ∧ c = head path' ∧
      (path' = [] ∨ ∃ a v r q, entry :: rest = a ++ v :: r ∧ v ≠ entry ∧ q = foldl (λ q x, to_mother G x q) p a ∧ asm G v = false ∧ cont G v q = true ∧
        located G (not_excl (Some entry)) v q r path').
Proof. intros. by eapply different_general. Qed.
Print Assumptions C64_leave.
(** If the point is really outside the volume left, the result is the location from the top. *)
Theorem C64_leave_agrees :
  ∀ (pt : Type) (G : geom pt) h fuel world entry rest g r path', height G h → locators_ok G → all_locators G → sane G → asm G world = false →
    nested G world (entry :: rest) → (h world < fuel)%nat →
    locate_global G fuel world g [] true = Some (r, path') → entry ∉ path' →
    relocate_different G fuel (local G (entry :: rest) g) (entry :: rest) = Some (r, path').
Proof. intros. by eapply relocate_different_ok. Qed.
Print Assumptions C64_leave_agrees.
Theorem C64_bvh_leave :
  ∀ (pt : Type) (G : geom pt) h fuel world path p, height G h → locators_ok G → all_locators G → sane G → nested G world path → (h world < fuel)%nat →
    bvh_relocate_different G fuel p path = relocate_different G fuel p path.
Proof. intros. by eapply different_agree. Qed.
Print Assumptions C64_bvh_leave.
Example C64_example : sane g_loc ∧ nested g_loc 0%N [3; 1; 0]%N ∧ relocate g_loc 5 12%N [3; 1; 0]%N = Some (Some 2%N, [2; 0]%N) ∧
  relocate_different g_loc 5 7%N [3; 1; 0]%N = Some (Some 1%N, [1; 0]%N) ∧ has_same_path g_loc 5 3%N [3; 1; 0]%N = Some (true, [3; 1; 0]%N).
Proof. split; [apply g_sane|]. split; [|by vm_compute]. cbn. split; [by left|]. split; [by left|done]. Qed.
