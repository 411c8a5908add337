(** Properties of one navigation step: C32. *)
From Coq Require Import Reals Lra Lia.
From stdpp Require Import sets list option.
From Verif Require Import Real3 LocateModel LocateSpec LocateProofs SearchModel SearchSpec SearchProofs StepModel StepSpec StepProofs PropLocate.
Import stdpp.list.
Local Open Scope R_scope.

(** C32.  [Dout v p d], [Din w p d]: distances along the ray out of the volume and into a daughter.
    ComputeStep: the step is the limit or the distance to the first boundary, whichever is less;
    the state says which of the two, and which daughter was hit. *)
Theorem C32_step :
  ∀ (pt dr : Type) (G : geom pt) inf tol Dout Din frame to_out search v r last bnd (gp : pt) (gd : dr) limit,
    0 < inf → exit_ok inf Dout to_out → search_ok G Din search → 0 <= limit →
    let s := NState (v :: r) last bnd in
    let '(p, d) := frame (v :: r) gp gd in
    ∃ b hit, first_boundary G Dout Din (head last) v p d b hit ∧
      compute_step G inf tol frame to_out search s gp gd limit =
        Some (if Rle_dec b limit then (Rmax 0 b, NState (match hit with Some w => w :: v :: r | None => v :: r end) (v :: r) true)
              else (limit, NState (v :: r) last false)).
Proof.
  intros pt dr G inf tol Dout Din frame to_out search v r last bnd gp gd limit Hi He Hs Hl s. unfold compute_step. cbn [s_path s]. destruct (frame (v :: r) gp gd) as [p d].
  destruct (find_ok G inf Dout Din to_out search He Hs Hi v r last bnd p d limit Hl) as (g & hit & E & Hg & b & bh & Hb & K).
  unfold s. exists b, bh. split; [done|]. rewrite E. cbn [mbind option_bind]. rewrite (prepare_ok G inf tol _ g limit hit Hg). cbn [mbind option_bind].
  destruct K as [(K & -> & ->)|(K1 & K2)]; [by destruct (Rle_dec g limit)|]. destruct (Rle_dec g limit); [lra|]. by destruct (Rle_dec b limit); [lra|].
Qed.
Print Assumptions C32_step.
(** So the step is never negative nor above the limit, and the flag tells whether a boundary
    limited the step. *)
Theorem C32_bounds :
  ∀ (pt dr : Type) (G : geom pt) inf tol Dout Din frame to_out search v r last bnd (gp : pt) (gd : dr) limit,
    0 < inf → exit_ok inf Dout to_out → search_ok G Din search → 0 <= limit →
    ∃ step out, compute_step G inf tol frame to_out search (NState (v :: r) last bnd) gp gd limit = Some (step, out) ∧ 0 <= step <= limit ∧
      (s_bnd out = false → step = limit ∧ s_path out = v :: r) ∧
      (s_bnd out = true → s_last out = v :: r ∧ (s_path out = v :: r ∨ ∃ w, w ∈ dau G v ∧ s_path out = w :: v :: r)).
Proof.
  intros pt dr G inf tol Dout Din frame to_out search v r last bnd gp gd limit Hi He Hs Hl.
  pose proof (C32_step pt dr G inf tol Dout Din frame to_out search v r last bnd gp gd limit Hi He Hs Hl) as H. cbv zeta in H. destruct (frame (v :: r) gp gd) as [p d].
  destruct H as (b & hit & Hb & ->). destruct (Rle_dec b limit) as [L|L].
  - eexists _, _. split; [done|]. cbn. split; [split; [apply Rmax_l|apply Rmax_lub; lra]|]. split; [done|]. intros _. split; [done|].
    destruct Hb as (_ & _ & [[_ E]|(w & Hw & _ & E & _)]); cbn in E; subst hit; [by left|right; by exists w].
  - eexists _, _. split; [done|]. cbn. split; [lra|]. done.
Qed.
Print Assumptions C32_bounds.
(** ComputeStepAndPropagatedState: the same step and flag.  After a boundary, the state is the
    location, from the top, of the point 1e-6 behind the boundary, without assemblies at its end -
    provided that point is in the daughter entered, or out of the volume left. *)
Theorem C32_propagated :
  ∀ (pt dr : Type) (G : geom pt) h fuel world inf tol Dout Din frame to_out search move v r last bnd (gp : pt) (gd : dr) limit,
    0 < inf → exit_ok inf Dout to_out → search_ok G Din search → 0 <= limit →
    height G h → locators_ok G → all_locators G → sane G → asm G world = false → nested G world (v :: r) → (h world < fuel)%nat →
    (∀ t, local G (v :: r) (move gp gd t) = move (frame (v :: r) gp gd).1 (frame (v :: r) gp gd).2 t) →
    let s := NState (v :: r) last bnd in
    ∃ step out, compute_step G inf tol frame to_out search s gp gd limit = Some (step, out) ∧
      let behind := move gp gd (step + 1 / 1000000) in
      ∀ top path, locate_global G fuel world behind [] true = Some (top, path) →
      (∀ w, s_path out = w :: v :: r → cont G w (local G (w :: v :: r) behind) = true) →
      (s_path out = v :: r → s_bnd out = true → v ∉ path) →
      compute_propagated G inf tol frame to_out move search (relocate_different G fuel) (λ w q p, locate_global G fuel w q p false) s gp gd limit =
        Some (step, NState (if s_bnd out then trimmed G path else v :: r) (s_last out) (s_bnd out)).
Proof.
  intros pt dr G h fuel world inf tol Dout Din frame to_out search move v r last bnd gp gd limit Hi He Hs Hl Hh Hlo Ha Hsane Hw Hn Hf Hmove s.
  unfold compute_step, compute_propagated. cbn [s_path s]. destruct (frame (v :: r) gp gd) as [p d]. cbn [fst snd] in Hmove.
  destruct (find_ok G inf Dout Din to_out search He Hs Hi v r last bnd p d limit Hl) as (g & hit & E & Hg & b & bh & Hb & K).
  unfold s. rewrite E. cbn [mbind option_bind]. rewrite (prepare_ok G inf tol _ g limit hit Hg). cbn [s_path s_last]. destruct (Rle_dec g limit) as [L|L]; cbn [mbind option_bind negb s_bnd].
  2: { eexists _, _. split; [done|]. cbn. done. }
  eexists _, _. split; [done|]. cbn [s_path s_last s_bnd]. intros top path Hloc Hin Hout. unfold StepModel.behind. rewrite <- Hmove.
  rewrite (reached_ok G h fuel world v r last bnd hit _ top path Hh Hlo Ha Hsane Hw Hn Hf Hloc).
  - cbn [mbind option_bind s_path s_last s_bnd]. apply (finish_ok G _ world); [done|]. by eapply located_world.
  - destruct hit as [w|]; [|by apply Hout]. split; [|by apply Hin]. destruct K as [(K1 & K2 & <-)|(K1 & K2)]; [|lra].
    destruct Hb as (_ & _ & [[_ B]|(w' & B & _ & C & _)]); cbn in *; [done|]. by injection C as <-.
Qed.
Print Assumptions C32_propagated.
(** BVHNavigator relocates with its own functions; the result is the same. *)
Theorem C32_bvh_propagated :
  ∀ (pt dr : Type) (G : geom pt) h fuel world inf tol frame to_out search move v r last bnd (gp : pt) (gd : dr) limit,
    height G h → locators_ok G → all_locators G → sane G → nested G world (v :: r) → (h world < fuel)%nat →
    (∀ v last p d step r w, search v last p d step = Some (r, Some w) → w ∈ dau G v) →
    let s := NState (v :: r) last bnd in
    compute_propagated G inf tol frame to_out move search (bvh_relocate_different G fuel) (λ w q p, bvh_locate_global G fuel w q p false None) s gp gd limit =
    compute_propagated G inf tol frame to_out move search (relocate_different G fuel) (λ w q p, locate_global G fuel w q p false) s gp gd limit.
Proof.
  intros pt dr G h fuel world inf tol frame to_out search move v r last bnd gp gd limit Hh Hl Ha Hs Hn Hf Hse s. unfold compute_propagated, s. cbn [s_path]. destruct (frame (v :: r) gp gd) as [p d].
  destruct (find_step G to_out search (NState (v :: r) last bnd) p d limit) as [[g hit]|] eqn:E; [|done]. cbn [mbind option_bind].
  assert (∀ w, hit = Some w → w ∈ dau G v) as Hw.
  { intros w ->. unfold find_step in E. cbn in E. destruct (dau G v) eqn:Ed; [done|]. rewrite <- Ed. by eapply Hse. }
  unfold prepare_out. cbn [s_path s_last]. destruct (reqb g inf && rgtb limit 0).
  { by destruct (pop_assemblies G (list.tail (v :: r))). }
  destruct (rgtb g limit); [done|]. cbn [mbind option_bind negb s_bnd]. unfold relocate_step. cbn [s_path s_last s_bnd]. destruct hit as [w|]; cbn [head].
  - specialize (Hw w eq_refl). pose proof (Hh _ _ Hw). pose proof (nested_height G h world v r Hh Hn). rewrite !bool_decide_false by (intros [= ->]; lia). cbn [mbind option_bind list.tail].
    rewrite (locate_bvh G h) by (done || lia). done.
  - rewrite !bool_decide_true by done. by rewrite (C64_bvh_leave pt G h fuel world).
Qed.
Print Assumptions C32_bvh_propagated.
(** ComputeStepAndSafetyAndPropagatedState: the same result, with the safety; it leaves out the
    removal of assemblies, which makes no difference where the point is where it should be. *)
Theorem C32_safety_propagated :
  ∀ (pt dr : Type) (G : geom pt) h fuel world inf tol Dout Din frame to_out search move estimate v r last bnd (gp : pt) (gd : dr) limit calc safety,
    0 < inf → exit_ok inf Dout to_out → search_ok G Din search → 0 <= limit →
    height G h → locators_ok G → all_locators G → sane G → asm G world = false → nested G world (v :: r) → (h world < fuel)%nat →
    (∀ t, local G (v :: r) (move gp gd t) = move (frame (v :: r) gp gd).1 (frame (v :: r) gp gd).2 t) →
    match calc with true => estimate v (frame (v :: r) gp gd).1 = Some safety | false => safety = 0 end →
    let s := NState (v :: r) last bnd in
    ∃ step out, compute_step G inf tol frame to_out search s gp gd limit = Some (step, out) ∧
      let behind := move gp gd (step + 1 / 1000000) in
      ∀ top path, locate_global G fuel world behind [] true = Some (top, path) →
      (∀ w, s_path out = w :: v :: r → cont G w (local G (w :: v :: r) behind) = true) →
      (s_path out = v :: r → s_bnd out = true → v ∉ path) →
      compute_safety_propagated G inf tol frame to_out move search (relocate_different G fuel) (λ w q p, locate_global G fuel w q p false) estimate s gp gd limit calc =
        Some (step, safety, NState (if s_bnd out then path else v :: r) (s_last out) (s_bnd out)).
Proof.
  intros pt dr G h fuel world inf tol Dout Din frame to_out search move estimate v r last bnd gp gd limit calc safety Hi He Hs Hl Hh Hlo Ha Hsane Hw Hn Hf Hmove Hsafe s.
  unfold compute_step, compute_safety_propagated. cbn [s_path s]. destruct (frame (v :: r) gp gd) as [p d]. cbn [fst snd] in Hmove, Hsafe.
  destruct (find_ok G inf Dout Din to_out search He Hs Hi v r last bnd p d limit Hl) as (g & hit & E & Hg & b & bh & Hb & K).
  unfold s. cbn [head mbind option_bind]. assert ((if calc then estimate v p else Some 0) = Some safety) as -> by (destruct calc; congruence). cbn [mbind option_bind].
  rewrite E. cbn [mbind option_bind]. rewrite (prepare_ok G inf tol _ g limit hit Hg). cbn [s_path s_last]. destruct (Rle_dec g limit) as [L|L]; cbn [mbind option_bind negb s_bnd].
  2: { eexists _, _. split; [done|]. cbn. done. }
  eexists _, _. split; [done|]. cbn [s_path s_last s_bnd]. intros top path Hloc Hin Hout. unfold StepModel.behind. rewrite <- Hmove.
  rewrite (reached_ok G h fuel world v r last bnd hit _ top path Hh Hlo Ha Hsane Hw Hn Hf Hloc); [done|].
  destruct hit as [w|]; [|by apply Hout]. split; [|by apply Hin]. destruct K as [(K1 & K2 & <-)|(K1 & K2)]; [|lra].
  destruct Hb as (_ & _ & [[_ B]|(w' & B & _ & C & _)]); cbn in *; [done|]. by injection C as <-.
Qed.
Print Assumptions C32_safety_propagated.
(** The two then agree: a location does not end in an assembly. *)
Theorem C32_no_assembly : ∀ (pt : Type) (G : geom pt) bbox h fuel world g top path, height G h → locators_ok G → all_locators G → assemblies G bbox → (h world < fuel)%nat →
  locate_global G fuel world g [] true = Some (top, path) → trimmed G path = path.
Proof. intros. by eapply located_trimmed. Qed.
Print Assumptions C32_no_assembly.
(** ComputeStepAndSafety: the same step, also when the safety spares the search; the daughter hit
    is pushed on demand, without regard to the limit. *)
Theorem C32_and_safety :
  ∀ (pt dr : Type) (G : geom pt) inf tol Dout Din frame to_out search estimate v r last bnd (gp : pt) (gd : dr) limit calc s0 safety indicate,
    0 < inf → exit_ok inf Dout to_out → search_ok G Din search → 0 <= limit →
    let s := NState (v :: r) last bnd in
    let '(p, d) := frame (v :: r) gp gd in
    match calc with true => estimate v p = Some safety | false => safety = s0 end →
    (∀ b hit, first_boundary G Dout Din (head last) v p d b hit → 0 <= b ∧ safety <= b) →
    ∃ step out s', compute_and_safety G frame to_out search estimate s gp gd limit calc s0 indicate = Some (step, safety, s') ∧
      compute_step G inf tol frame to_out search s gp gd limit = Some (step, out) ∧
      (s' = s ∨ indicate = true ∧ ∃ w, w ∈ dau G v ∧ s' = NState (w :: v :: r) last bnd) ∧
      (indicate = true → s_path out ≠ v :: r → s_path s' = s_path out ∨ (calc = true ∧ limit <= safety)).
Proof.
  intros pt dr G inf tol Dout Din frame to_out search estimate v r last bnd gp gd limit calc s0 safety indicate Hi He Hs Hl s. unfold compute_and_safety, compute_step, s. cbn [s_path]. destruct (frame (v :: r) gp gd) as [p d].
  intros Hsafe Hb. cbn [head mbind option_bind]. assert ((if calc then estimate v p else Some s0) = Some safety) as -> by (destruct calc; congruence). cbn [mbind option_bind].
  destruct (find_ok G inf Dout Din to_out search He Hs Hi v r last bnd p d limit Hl) as (g & hit & E & Hg & b & bh & Fb & K). specialize (Hb b bh Fb).
  rewrite E. cbn [mbind option_bind]. rewrite (prepare_ok G inf tol _ g limit hit Hg). cbn [mbind option_bind s_path s_last].
  destruct (calc && rleb limit safety) eqn:Ec; cbn [mbind option_bind].
  - apply andb_true_iff in Ec as [-> Ec]. apply rleb_true in Ec. destruct (Rle_dec g limit) as [L|L]; eexists _, _, _; (split; [done|]); cbn [mbind option_bind].
    + split; [rewrite Rmin_left by lra; f_equal; f_equal; destruct K as [(K & <- & _)|(K & _)]; [rewrite Rmax_right|]; lra|]. split; [by left|]. intros; right; done.
    + split; [rewrite Rmin_left by lra; done|]. split; [by left|]. by cbn.
  - assert (∀ w, hit = Some w → w ∈ dau G v) as Hw.
    { intros w ->. unfold find_step in E. cbn [s_path s_last head mbind option_bind] in E. destruct (dau G v) as [|x l] eqn:Ed; [done|]. destruct (mother_ok inf Dout to_out He Hi v p d limit Hl) as ((M0 & _) & _).
      destruct (Hs v (head last) p d _ M0) as (r' & E' & _ & _ & [[_ N]|(w' & A & _ & N & _)]); rewrite E in E'; injection E' as <-; cbn in N; [done|]. injection N as <-. by rewrite <- Ed. }
    destruct (Rle_dec g limit) as [L|L]; eexists _, _, _; (split; [done|]); cbn [mbind option_bind s_path].
    + split; [rewrite Rmin_left by lra; f_equal; f_equal; destruct K as [(K & <- & _)|(K & _)]; [rewrite Rmax_right|]; lra|]. destruct hit as [w|]; [|split; [by left|by intros]].
      destruct indicate; split; [right; eauto| |by left|done]. intros _ _. by left.
    + split; [rewrite Rmin_right by lra; done|]. destruct hit as [w|]; [|split; [by left|by intros]]. destruct indicate; split; [right; eauto|by cbn|by left|done].
Qed.
Print Assumptions C32_and_safety.
(** An infinite distance is taken for a wrong volume: the step is [tol], even above the limit, and
    the volume is left. *)
Theorem C32_infinite_refuted : ∀ (pt dr : Type) (G : geom pt) inf tol frame to_out search v r last bnd (gp : pt) (gd : dr) limit,
  dau G v = [] → 0 < limit → 0 < inf → (∀ p d, to_out v p d limit = inf) →
  compute_step G inf tol frame to_out search (NState (v :: r) last bnd) gp gd limit = (path ← pop_assemblies G r; Some (tol, NState path last true)) ∧
  compute_step G inf tol frame to_out search (NState [v] last bnd) gp gd limit = None.
Proof.
  intros pt dr G inf tol frame to_out search v r last bnd gp gd limit Hd Hl Hi Ho.
  assert (∀ r, compute_step G inf tol frame to_out search (NState (v :: r) last bnd) gp gd limit = (path ← pop_assemblies G r; Some (tol, NState path last true))) as H.
  { intros r'. unfold compute_step. cbn [s_path]. destruct (frame (v :: r') gp gd) as [p d]. unfold find_step. cbn [s_path head mbind option_bind]. rewrite Hd. cbn [mbind option_bind]. unfold mother_distance. rewrite Ho.
    destruct (rltb_spec inf 0); [lra|]. unfold prepare_out. destruct (reqb_spec inf inf); [|done]. destruct (rgtb_spec limit 0); [|lra]. cbn [andb s_path list.tail s_last]. by destruct (pop_assemblies G r'). }
  split; [apply H|]. by rewrite H.
Qed.
Print Assumptions C32_infinite_refuted.
(** A point that is still in the volume left, in an assembly: ComputeStepAndSafetyAndPropagatedState
    returns the assembly, ComputeStepAndPropagatedState does not. *)
Definition g_asm : geom N := Geom (λ v, if (v =? 0)%N then [1%N] else if (v =? 1)%N then [2%N] else []) (λ _ _, true) (λ _ p, p) (λ _ p, p) (λ v, (v =? 1)%N) (λ _, None).
Theorem C32_assembly_refuted :
  let to_out (_ : N) (_ : N) (_ : unit) (_ : R) := 1 in let search (_ : N) (_ : option N) (_ : N) (_ : unit) (step : R) := Some (step, None) in
  let frame (_ : list N) (p : N) (d : unit) := (p, d) in let move (p : N) (_ : unit) (_ : R) := p in let s := NState [2; 1; 0]%N [] false in
  let diff := relocate_different g_asm 5 in let inn w q p := locate_global g_asm 5 w q p false in
  compute_propagated g_asm 100 0 frame to_out move search diff inn s 7%N tt 2 = Some (1, NState [0]%N [2; 1; 0]%N true) ∧
  compute_safety_propagated g_asm 100 0 frame to_out move search diff inn (λ _ _, Some 0) s 7%N tt 2 false = Some (1, 0, NState [1; 0]%N [2; 1; 0]%N true).
Proof.
  cbv zeta. unfold compute_propagated, compute_safety_propagated, find_step, mother_distance, prepare_out. cbn [s_path head mbind option_bind dau g_asm N.eqb Pos.eqb]. destruct (rltb_spec 1 0); [lra|].
  cbn [mbind option_bind]. destruct (reqb_spec 1 100); [lra|]. cbn [andb]. destruct (rgtb_spec 1 2); [lra|]. cbn [mbind option_bind negb s_bnd]. unfold relocate_step. cbn [s_path s_last s_bnd head].
  rewrite bool_decide_true by done. assert (∀ q, relocate_different g_asm 5 q [2; 1; 0]%N = Some (Some 1%N, [1; 0]%N)) as -> by done. cbn. rewrite ?Rmax_right by lra. destruct (rltb_spec 1 0); [lra|]. done.
Qed.
Print Assumptions C32_assembly_refuted.
(** A line: the world [0, 10] with one daughter [2, 4]. *)
Definition line_lo (v : N) : R := if (v =? 1)%N then 2 else 0.
Definition line_hi (v : N) : R := if (v =? 1)%N then 4 else 10.
Definition line_of (l : N → option (locator R)) : geom R :=
  Geom (λ v, if (v =? 0)%N then [1%N] else []) (λ v p, rleb (line_lo v) p && rleb p (line_hi v)) (λ _ p, p) (λ _ p, p) (λ _, false) l.
Definition line : geom R := line_of (λ _, Some (simple_locator (line_of (λ _, None)))).
Definition line_out (v : N) (p : R) (_ : unit) : R := Rmax 0 (Rmin 50 (line_hi v - p)).
Definition line_in (v : N) (p : R) (_ : unit) : R := if rltb p (line_lo v) then line_lo v - p else if rltb p (line_hi v) then -1 else 1000.
Definition line_search (v : N) (last : option N) (p : R) (d : unit) (step : R) : option (R * option N) := Some (simple_search (dau line v) (λ w _, line_in w p d) last (step, None)).
Example C32_example : exit_ok 100 line_out (λ v p d _, line_out v p d) ∧ search_ok line line_in line_search ∧
  height line (λ v, if (v =? 0)%N then 1%nat else 0%nat) ∧ locators_ok line ∧ all_locators line ∧ sane line ∧ asm line 0 = false ∧ nested line 0%N [1; 0]%N ∧
  (∀ g t, local line [1; 0]%N (g + t) = local line [1; 0]%N g + t).
Proof.
  split. { intros v p d limit. unfold line_out. split; [|split; [intros _; rewrite Rmax_right by apply Rmax_l; done|done]]. apply Rmax_lub_lt; [lra|]. apply Rle_lt_trans with 50; [apply Rmin_l|lra]. }
  split. { intros v last p d step Hs. eexists. split; [done|]. apply (SearchProofs.simple_ok (dau line v) (λ w, line_in w p d) (λ w _, line_in w p d)). intros w st. split; [done|lra]. }
  split. { intros v d Hd. cbn in Hd. destruct (v =? 0)%N; [|by apply elem_of_nil in Hd]. apply elem_of_list_singleton in Hd as ->. cbn. lia. }
  split. { intros v L E. injection E as <-. pose proof (LocateProofs.simple_ok (line_of (λ _, None)) v) as (A & B & C & D). split; [|split; [|split]].
    - intros p ds q H. destruct (A p ds q H) as (H1 & w & H2). split; [done|]. exists w. clear -H2. induction H2; constructor; done.
    - exact B. - exact C. - exact D. }
  split; [by intros v _; eexists|]. split.
  { split; [done|]. split.
    - intros v d d' p Hd Hd'. cbn in Hd, Hd'. destruct (v =? 0)%N; [|by apply elem_of_nil in Hd]. apply elem_of_list_singleton in Hd as ->. by apply elem_of_list_singleton in Hd' as ->.
    - intros v d p Hd Hc. cbn in Hd, Hc |- *. destruct (v =? 0)%N eqn:E; [|by apply elem_of_nil in Hd]. apply elem_of_list_singleton in Hd as ->. apply N.eqb_eq in E as ->. cbn in *.
      apply andb_true_iff in Hc as [H1 H2]. apply rleb_true in H1, H2. apply andb_true_iff. split; apply rleb_true; lra. }
  split; [done|]. split; [|done]. cbn. split; [by left|done].
Qed.
