From Coq Require Import Reals Lra Lia.
From stdpp Require Import sets list option.
From Verif Require Import Real3 LocateModel LocateSpec LocateProofs SearchModel SearchSpec SearchProofs StepModel StepSpec.
Import stdpp.list.
Local Open Scope R_scope.

Section Step.
Context {pt dr : Type} (G : geom pt).
Variables (inf tol : R) (Dout Din : N → pt → dr → R) (frame : list N → pt → dr → pt * dr) (to_out : N → pt → dr → R → R) (move : pt → dr → R → pt).
Variable search : N → option N → pt → dr → R → option (R * option N).
Hypothesis Hexit : exit_ok inf Dout to_out.
Hypothesis Hsearch : search_ok G Din search.
Hypothesis Hinf : 0 < inf.

Lemma mother_ok v p d limit : 0 <= limit → 0 <= mother_distance to_out v p d limit < inf ∧
  (Dout v p d <= limit → mother_distance to_out v p d limit = Dout v p d) ∧ (limit < Dout v p d → limit < mother_distance to_out v p d limit).
Proof.
  intros Hl. destruct (Hexit v p d limit) as (H1 & H2 & H3). unfold mother_distance. destruct (rltb_spec (to_out v p d limit) 0) as [L|L].
  - split; [lra|]. split; [intros K; specialize (H2 K); rewrite Rmax_left in H2; lra|intros K; specialize (H3 K); lra].
  - split; [lra|]. split; [intros K; specialize (H2 K); rewrite Rmax_right in H2; lra|done].
Qed.
Lemma nearest_exists dl (D : N → R) last step0 hit0 : ∃ r, nearest dl D last step0 hit0 r.
Proof. eexists. apply (SearchProofs.simple_ok dl D (λ v _, D v)). intros v step. split; [done|lra]. Qed.
Lemma find_ok v r last bnd p d limit : 0 <= limit →
  ∃ g hit, find_step G to_out search (NState (v :: r) last bnd) p d limit = Some (g, hit) ∧ g < inf ∧
    ∃ b bhit, first_boundary G Dout Din (head last) v p d b bhit ∧
      ((g <= limit ∧ b = g ∧ hit = bhit) ∨ (limit < g ∧ limit < b)).
Proof.
  intros Hl. unfold find_step. cbn [s_path s_last head mbind option_bind]. destruct (mother_ok v p d limit Hl) as ((M0 & M1) & M2 & M3).
  assert (∃ g hit, match dau G v with [] => Some (mother_distance to_out v p d limit, None) | _ => search v (head last) p d (mother_distance to_out v p d limit) end = Some (g, hit)
    ∧ nearest (dau G v) (λ w, Din w p d) (head last) (mother_distance to_out v p d limit) None (g, hit)) as (g & hit & E & N).
  { destruct (dau G v) as [|x l] eqn:Ed.
    - eexists _, _. split; [done|]. split; [cbn; lra|]. split; [by intros ? ?%elem_of_nil|by left].
    - destruct (Hsearch v (head last) p d _ M0) as ((g & hit) & E & N). exists g, hit. rewrite <- Ed. done. }
  exists g, hit. split; [done|]. pose proof N as (N1 & N2 & N3). cbn [fst snd] in N1, N2, N3. split; [lra|].
  destruct (Rle_lt_dec (Dout v p d) limit) as [L|L].
  - rewrite (M2 L) in *. exists g, hit. split; [done|]. left. split; [lra|done].
  - specialize (M3 L). destruct (Rle_lt_dec g limit) as [K|K].
    + exists g, hit. split; [|left; done]. split; [cbn; lra|]. split; [done|]. right. destruct N3 as [[-> _]|(w & A & B & C & F & _)]; [lra|]. exists w. do 4 (split; [done|]). rewrite <- F. cbn. lra.
    + destruct (nearest_exists (dau G v) (λ w, Din w p d) (head last) (Dout v p d) None) as ((b & bh) & Nb). exists b, bh. split; [done|]. right. split; [done|].
      destruct Nb as (_ & _ & [[B _]|(w & A & B & _ & F & _)]); cbn in *; [lra|]. rewrite F. specialize (N2 w A B). lra.
Qed.
Lemma prepare_ok s g limit hit : g < inf →
  prepare_out G inf tol s g limit hit = Some (if Rle_dec g limit then (Rmax 0 g, NState (match hit with Some v => v :: s_path s | None => s_path s end) (s_path s) true, false)
    else (limit, NState (s_path s) (s_last s) false, false)).
Proof.
  intros Hg. unfold prepare_out. destruct (reqb_spec g inf); [lra|]. cbn [andb]. destruct (rgtb_spec g limit); destruct (Rle_dec g limit); try lra; [done|].
  do 4 f_equal. destruct (rltb_spec g 0); [rewrite Rmax_left|rewrite Rmax_right]; lra.
Qed.
End Step.

Section Arrive.
Context {pt : Type} (G : geom pt).
Lemma pop_trimmed path : pop_assemblies G path = match trimmed G path with [] => None | q => Some q end.
Proof. induction path as [|v r IH]; [done|]. cbn. by destruct (asm G v). Qed.
Lemma trimmed_top path v r : trimmed G path = v :: r → asm G v = false.
Proof. induction path as [|x l IH]; [done|]. cbn. destruct (asm G x) eqn:E; [done|]. by intros [= -> ->]. Qed.
Lemma trimmed_suffix path : ∃ a, path = a ++ trimmed G path ∧ Forall (λ v, asm G v = true) a.
Proof.
  induction path as [|x l (a & E & F)]; [by exists []|]. cbn. destruct (asm G x) eqn:Ex; [|by exists []]. exists (x :: a). split; [cbn; by f_equal|by constructor].
Qed.
Lemma trimmed_world a world : asm G world = false → trimmed G (a ++ [world]) ≠ [].
Proof. intros H. induction a as [|x a IH]; cbn; [by rewrite H|]. by destruct (asm G x). Qed.
(** Going on from a volume that contains the point gives the location from the top. *)
Lemma continue_ok h fuel world v r g : height G h → locators_ok G → all_locators G → sane G → nested G world (v :: r) → (h world < fuel)%nat → (h v < fuel)%nat →
  cont G v (local G (v :: r) g) = true → locate_global G fuel v (local G (v :: r) g) r false = locate_global G fuel world g [] true.
Proof.
  intros Hh Hl Ha Hs Hn Hf Hfv Hc. destruct (nested_chain G world v r g Hs Hn Hc) as (ds & C & E & W).
  unfold locate_global. rewrite W. cbn [andb negb].
  destruct (down_ok G h fuel v (local G (v :: r) g) r Hh Hl Ha Hfv) as (p1 & E1 & d1 & w1 & q1 & P1 & C1 & D1).
  destruct (down_ok G h fuel world g [] Hh Hl Ha Hf) as (p2 & E2 & d2 & w2 & q2 & P2 & C2 & D2).
  rewrite E1, E2. cbn [mbind option_bind]. assert (p1 = p2) as ->; [|done].
  pose proof (chain_app _ _ _ _ _ _ _ _ _ _ C C1) as C'. destruct (chain_unique _ _ _ _ _ _ _ _ _ _ Hs C' D1 C2 D2) as (<- & _ & _).
  rewrite P1, P2, E, rev_app_distr, <- app_assoc. done.
Qed.
End Arrive.

Section Agree.
Context {pt : Type} (G : geom pt).
Lemma locate_bvh h fuel v p path : height G h → locators_ok G → all_locators G → sane G → (h v < fuel)%nat →
  bvh_locate_global G fuel v p path false None = locate_global G fuel v p path false.
Proof.
  intros Hh Hl Ha Hs Hf. unfold bvh_locate_global, locate_global. cbn [andb].
  destruct (down_bvh_ok G h fuel v p path Hh Hl Ha Hf) as (p1 & -> & d1 & w1 & q1 & -> & C1 & D1). destruct (down_ok G h fuel v p path Hh Hl Ha Hf) as (p2 & -> & d2 & w2 & q2 & -> & C2 & D2).
  cbn [mbind option_bind]. by destruct (chain_unique _ _ _ _ _ _ _ _ _ _ Hs C1 D1 C2 D2) as (<- & _ & _).
Qed.
Lemma nested_height h world v r : height G h → nested G world (v :: r) → (h v ≤ h world)%nat.
Proof.
  intros Hh. revert v. induction r as [|m r IH]; intros v Hn; cbn in Hn; [by subst|]. destruct Hn as [A B]. specialize (IH m B). specialize (Hh _ _ A). lia.
Qed.
Lemma chain_cont v p ds w q : cont G v p = true → chain G any v p ds w q → cont G w q = true.
Proof. intros H C. induction C; auto. Qed.
(** A location does not end in an assembly, if assemblies are what their daughters are. *)
Lemma located_trimmed bbox h fuel world g top path : height G h → locators_ok G → all_locators G → assemblies G bbox → (h world < fuel)%nat →
  locate_global G fuel world g [] true = Some (top, path) → trimmed G path = path.
Proof.
  intros Hh Hl Ha Hb Hf. unfold locate_global. destruct (cont G world g) eqn:C; cbn [andb negb]; [|by intros [= _ <-]].
  destruct (down_ok G h fuel world g [] Hh Hl Ha Hf) as (p1 & -> & d1 & w1 & q1 & -> & C1 & D1). cbn [mbind option_bind]. intros [= _ <-].
  pose proof (chain_last G _ _ _ _ _ _ [] C1) as Hd. destruct (rev d1 ++ [world]) as [|x l]; [done|]. injection Hd as ->. cbn. destruct (asm G w1) eqn:E; [|done].
  exfalso. destruct (proj1 (Hb w1 q1 E) (chain_cont _ _ _ _ _ C C1)) as (_ & d & Hd1 & Hd2). rewrite (D1 d Hd1 I) in Hd2. done.
Qed.
End Agree.

Section Reach.
Context {pt : Type} (G : geom pt).
(** The state after a boundary is the location of the point, from the top. *)
Lemma reached_ok h fuel world v r last bnd hit g top path : height G h → locators_ok G → all_locators G → sane G → asm G world = false → nested G world (v :: r) → (h world < fuel)%nat →
  locate_global G fuel world g [] true = Some (top, path) →
  match hit with Some w => w ∈ dau G v ∧ cont G w (local G (w :: v :: r) g) = true | None => v ∉ path end →
  relocate_step G (relocate_different G fuel) (λ w q p, locate_global G fuel w q p false) (local G (v :: r) g) (NState (v :: r) last bnd)
    (NState (match hit with Some w => w :: v :: r | None => v :: r end) (v :: r) true) = Some (NState path (v :: r) true).
Proof.
  intros Hh Hlo Ha Hsane Hw Hn Hf Hloc Hhit. unfold relocate_step. cbn [s_path s_last s_bnd]. destruct hit as [w|]; cbn [head].
  - destruct Hhit as [Hd Hin]. pose proof (Hh v w Hd). pose proof (nested_height G h world v r Hh Hn). rewrite bool_decide_false by (intros [= ->]; lia). cbn [mbind option_bind list.tail].
    assert (nested G world (w :: v :: r)) as Hn' by done.
    pose proof (continue_ok G h fuel world w (v :: r) g Hh Hlo Ha Hsane Hn' Hf ltac:(lia) Hin) as C. rewrite Hloc, local_cons in C. rewrite C. done.
  - rewrite bool_decide_true by done. assert (relocate_different G fuel (local G (v :: r) g) (v :: r) = Some (top, path)) as -> by (by eapply relocate_different_ok). done.
Qed.
(** A located path is empty or starts at the world. *)
Lemma located_world h fuel world g top path : height G h → locators_ok G → all_locators G → (h world < fuel)%nat →
  locate_global G fuel world g [] true = Some (top, path) → path = [] ∨ ∃ a, path = a ++ [world].
Proof.
  intros Hh Hlo Ha Hf. unfold locate_global. destruct (cont G world g); cbn [andb negb]; [|intros [= _ <-]; by left].
  destruct (down_ok G h fuel world g [] Hh Hlo Ha Hf) as (p1 & -> & d1 & w1 & q1 & -> & C1 & D1). cbn [mbind option_bind]. intros [= _ <-]. right. by eexists.
Qed.
Lemma finish_ok {A} (st : A) world path last bnd : asm G world = false → path = [] ∨ (∃ a, path = a ++ [world]) →
  match path with [] => Some (st, NState path last bnd) | _ :: _ => p ← pop_assemblies G path; Some (st, NState p last bnd) end = Some (st, NState (trimmed G path) last bnd).
Proof.
  intros Hw [->|(a & ->)]; [done|]. rewrite pop_trimmed. pose proof (trimmed_world G a world Hw). by destruct (a ++ [world]) eqn:E; [apply app_nil in E as [_ ?]|]; destruct (trimmed G _).
Qed.
End Reach.
