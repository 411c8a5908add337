(** The queries on the bounding volume hierarchy. *)
From stdpp Require Import list list_numbers option.
From Coq Require Import Reals ZArith NArith Lia Lra.
From Verif Require Import Real3 AABBModel AABBSpec AABBProofs TransModel BVHModel BVHSpec BVHProofs BVHWalk.
Local Open Scope nat_scope.

Section Query.
Variable b : bvh.
Variable d : nat.
Hypothesis Hb : bvh_ok b d.
Variable dau : list N.
Hypothesis Hd : length dau = length (b_aabbs b).
Variable p : v3.

Lemma have_box i : i < length (b_aabbs b) → ∃ bx v, b_aabbs b !! i = Some bx ∧ dau !! i = Some v.
Proof.
  intros Hi. destruct (lookup_lt_is_Some_2 (b_aabbs b) i Hi) as [bx ?]. rewrite <- Hd in Hi.
  destruct (lookup_lt_is_Some_2 dau i Hi) as [v ?]. eauto.
Qed.
Lemma have_index v : v ∈ dau → ∃ i bx, i < length (b_aabbs b) ∧ b_aabbs b !! i = Some bx ∧ dau !! i = Some v.
Proof.
  intros [i Hi]%elem_of_list_lookup. pose proof (lookup_lt_Some _ _ _ Hi) as Hl. rewrite Hd in Hl.
  destruct (have_box i Hl) as (bx & v' & ? & ?). exists i, bx. done.
Qed.

(** ** Location *)
Lemma locate_leaf_ok accept prims :
  (∀ v bx q, daughter b dau v bx → accept v = Some q → in_box bx p) →
  (∀ i, i ∈ prims → i < length (b_aabbs b)) →
  ∃ s stop, locate_leaf b dau p accept prims = Some (s, stop) ∧
    if stop : bool then ∃ v q, s = Some (v, q) ∧ v ∈ dau ∧ accept v = Some q
    else s = None ∧ ∀ i v, i ∈ prims → dau !! i = Some v → accept v = None.
Proof.
  intros Hacc. induction prims as [|i r IH]; intros Hp.
  - exists None, false. split; [done|]. split; [done|]. intros i v Hi. by apply elem_of_nil in Hi.
  - destruct IH as (s & stop & E & H); [intros j Hj; apply Hp; by right|].
    destruct (have_box i) as (bx & v & Ex & Ev); [apply Hp; left|]. cbn [locate_leaf]. rewrite Ex. cbn [mbind option_bind].
    assert (accept v = None → ∃ s stop, locate_leaf b dau p accept r = Some (s, stop) ∧
      if stop : bool then ∃ v q, s = Some (v, q) ∧ v ∈ dau ∧ accept v = Some q
      else s = None ∧ ∀ j v, j ∈ i :: r → dau !! j = Some v → accept v = None) as Hrest.
    { intros Ha. exists s, stop. split; [done|]. destruct stop; [done|]. destruct H as [-> H]. split; [done|].
      intros j w [-> | Hj]%elem_of_cons Hw; [congruence|by eapply H]. }
    destruct (bcontains bx p) eqn:Eb.
    + rewrite Ev. cbn [mbind option_bind]. destruct (accept v) as [q|] eqn:Ea; [|by apply Hrest].
      exists (Some (v, q)), true. split; [done|]. exists v, q. split_and!; [done|by eapply elem_of_list_lookup_2|done].
    + apply Hrest. destruct (accept v) as [q|] eqn:Ea; [|done]. exfalso.
      assert (in_box bx p) as Hin by (eapply Hacc; [by exists i|done]). apply bcontains_spec in Hin. congruence.
Qed.

Theorem locate_ok accept :
  (∀ v bx q, daughter b dau v bx → accept v = Some q → in_box bx p) →
  ∃ r, (∀ lim, S d ≤ lim → locate b dau p accept lim = Some r) ∧
    match r with
    | Some (v, q) => v ∈ dau ∧ accept v = Some q
    | None => ∀ v, v ∈ dau → accept v = None
    end.
Proof.
  intros Hacc.
  destruct (run_ok (λ _ prims, locate_leaf b dau p accept prims) (locate_push b p) b d Hb
    (λ s, s = None) (λ _ i, ∀ v, dau !! i = Some v → accept v = None)
    (λ s, ∃ v q, s = Some (v, q) ∧ v ∈ dau ∧ accept v = Some q)) with (s := @None (N * v3)) as (s & stop & E & H).
  - intros s prims -> Hp. destruct (locate_leaf_ok accept prims Hacc Hp) as (s' & stop & E & H). exists s', stop. split; [done|].
    destruct stop; [done|]. destruct H as [-> H]. split_and!; [done| |done]. intros i Hi v Hv. by eapply H.
  - intros s id bl br _ El Er. exists (bcontains bl p), (bcontains br p), false. unfold locate_push. rewrite El, Er. split; [done|].
    assert (∀ bn, bcontains bn p = false → ∀ i bi, b_aabbs b !! i = Some bi → box_le bi bn → ∀ v, dau !! i = Some v → accept v = None) as K.
    { intros bn Hn i bi Hi Hle v Hv. destruct (accept v) as [q|] eqn:Ea; [|done]. exfalso.
      assert (in_box bn p) as Hin by (apply Hle; eapply Hacc; [by exists i|done]). apply bcontains_spec in Hin. congruence. }
    split; intros Hn; by apply K.
  - done.
  - exists s. split. { intros lim Hlim. unfold locate. by rewrite (E lim Hlim). }
    destruct stop.
    + destruct H as (v & q & -> & H). done.
    + destruct H as [-> H]. intros v Hv. destruct (have_index v Hv) as (i & bx & Hi & _ & Ev). by eapply H.
Qed.

(** ** Rays *)
Section Ray.
Variable dir : v3.
Variable last : option N.
Variable D : N → R.
Variable dti : N → R → R.
Hypothesis Hdti : ∀ v step, v ∈ dau → if rltb (D v) step then dti v step = D v else (step <= dti v step)%R.
Hypothesis Hpos : ∀ v bx, daughter b dau v bx → (0 <= D v)%R → in_box bx (along p (vnonzero dir) (D v)).
Hypothesis Hneg : ∀ v bx, daughter b dau v bx → (D v < 0)%R → D v = (-1)%R ∧ in_interior bx p.
Notation inv := (vinv (vnonzero dir)).
Definition valid (v : N) : Prop := ¬ ((D v <= 0)%R ∧ Some v = last).
Definition rcov (s : R * option N) (i : nat) : Prop := ∀ v, dau !! i = Some v → valid v → (s.1 <= D v)%R.
Variable step0 : R.
Variable hit0 : option N.
Hypothesis Hstep0 : (0 <= step0)%R.
Definition rinv (s : R * option N) : Prop :=
  (s = (step0, hit0) ∨ ∃ v, v ∈ dau ∧ valid v ∧ s = (D v, Some v) ∧ (D v < step0)%R).
Lemma rinv_pos s : rinv s → (0 <= s.1)%R ∨ s.1 = (-1)%R.
Proof.
  intros [-> | (v & Hv & _ & -> & _)]; [by left|]. cbn [fst].
  destruct (Rle_or_lt 0 (D v)) as [?|Hn]; [by left|right].
  destruct (have_index v Hv) as (i & bx & _ & ? & ?). eapply Hneg; [|done]. by exists i.
Qed.
Lemma rmiss s i bx bn : rinv s → b_aabbs b !! i = Some bx → box_le bx bn → bhit_inv bn p inv s.1 = false → rcov s i.
Proof.
  intros Hs Hx Hle Hh v Hv _. destruct (Rle_or_lt s.1 (D v)) as [?|Hlt]; [done|exfalso].
  assert (daughter b dau v bx) as Hdv by (by exists i). pose proof (vnonzero_nz dir) as Hnz.
  destruct (Rle_or_lt 0 (D v)) as [Hp|Hn].
  - pose proof (Hpos v bx Hdv Hp) as Hin. assert (bhit_inv bn p inv s.1 = true); [|congruence].
    eapply hit_complete; [done|by apply Hle|lra].
  - destruct (Hneg v bx Hdv Hn) as [E Hin]. assert (bhit_inv bx p inv s.1 = true).
    { apply hit_inside; [done|done|]. destruct (rinv_pos s Hs) as [?|?]; [done|]. rewrite E in Hlt. lra. }
    assert (bhit_inv bn p inv s.1 = true); [|congruence]. eapply hit_mono; [done| |done|done].
    destruct Hin as (? & ? & ?). unfold proper. lra.
Qed.
Lemma ray_leaf_ok s prims : rinv s → (∀ i, i ∈ prims → i < length (b_aabbs b)) →
  ∃ s', ray_leaf b dau p inv dti last s prims = Some (s', false) ∧ rinv s' ∧ (s'.1 <= s.1)%R ∧ ∀ i, i ∈ prims → rcov s' i.
Proof.
  revert s. induction prims as [|i r IH]; intros s Hs Hp.
  - exists s. split; [done|]. split_and!; [done|lra|]. intros i Hi. by apply elem_of_nil in Hi.
  - destruct (have_box i) as (bx & v & Ex & Ev); [apply Hp; left|]. cbn [ray_leaf]. rewrite Ex. cbn [mbind option_bind].
    assert (∀ s1, rinv s1 → (s1.1 <= s.1)%R → rcov s1 i → ∃ s', ray_leaf b dau p inv dti last s1 r = Some (s', false) ∧
      rinv s' ∧ (s'.1 <= s.1)%R ∧ ∀ j, j ∈ i :: r → rcov s' j) as K.
    { intros s1 Hs1 Hle Hc. destruct (IH s1 Hs1) as (s' & E & Hs' & Hle' & Hc'); [intros j Hj; apply Hp; by right|].
      exists s'. split; [done|]. split_and!; [done|lra|]. intros j [-> | Hj]%elem_of_cons; [|by apply Hc'].
      intros w Hw Hval. specialize (Hc w Hw Hval). lra. }
    destruct (bhit_inv bx p inv s.1) eqn:Eh.
    + rewrite Ev. cbn [mbind option_bind]. assert (v ∈ dau) as Hv by (by eapply elem_of_list_lookup_2).
      pose proof (Hdti v s.1 Hv) as HD. destruct (rltb (D v) s.1) eqn:El.
      * rewrite HD. rewrite El. apply rltb_true in El. cbn [andb].
        destruct (negb (rleb (D v) 0 && bool_decide (Some v = last))) eqn:En.
        -- assert (valid v) as Hval.
           { intros [H1 H2]. apply negb_true_iff, andb_false_iff in En as [En|En].
             - apply rleb_false in En. lra.
             - by apply bool_decide_eq_false in En. }
           apply K; [|cbn [fst]; lra|].
           ++ right. exists v. split_and!; [done..|]. destruct Hs as [-> | (w & _ & _ & -> & Hw)]; cbn [fst] in El; lra.
           ++ intros w Hw _. cbn [fst]. assert (w = v) as -> by congruence. lra.
        -- apply K; [done|lra|]. intros w Hw Hval. assert (w = v) as -> by congruence. exfalso. apply Hval.
           apply negb_false_iff, andb_true_iff in En as [E1 E2]. apply rleb_true in E1. by apply bool_decide_eq_true in E2.
      * apply rltb_false in El. assert (rltb (dti v s.1) s.1 = false) as -> by (apply rltb_false; lra). cbn [andb].
        apply K; [done|lra|]. intros w Hw _. assert (w = v) as -> by congruence. lra.
    + apply K; [done|lra|]. apply (rmiss s i bx bx); [done|done| |done]. by intros q.
Qed.
Theorem ray_ok : ∃ step hit,
  (∀ lim, S d ≤ lim → check_intersections b dau p dir dti last step0 hit0 lim = Some (step, hit)) ∧
  (step <= step0)%R ∧ (∀ v, v ∈ dau → valid v → (step <= D v)%R) ∧
  ((step = step0 ∧ hit = hit0) ∨ ∃ v, v ∈ dau ∧ valid v ∧ hit = Some v ∧ step = D v ∧ (D v < step0)%R).
Proof.
  destruct (run_ok (ray_leaf b dau p inv dti last) (ray_push b p inv) b d Hb rinv rcov (λ _, False)) with (s := (step0, hit0)) as (s & stop & E & H).
  - intros s prims Hs Hp. destruct (ray_leaf_ok s prims Hs Hp) as (s' & E & Hs' & Hle & Hc). exists s', false. split; [done|].
    split_and!; [done..|]. intros i Hi v Hv Hval. specialize (Hi v Hv Hval). lra.
  - intros s id bl br Hs El Er. unfold ray_push. rewrite El, Er. cbn [mbind option_bind].
    exists (bhit_inv bl p inv s.1), (bhit_inv br p inv s.1), (rltb (bintersection br p inv).1 (bintersection bl p inv).1).
    split; [done|]. split; intros Hn i bi Hi Hle; by eapply rmiss.
  - by left.
  - destruct stop; [done|]. destruct H as [Hs Hc], s as [step hit]. exists step, hit. split.
    { intros lim Hlim. unfold check_intersections. by rewrite (E lim Hlim). }
    split_and!.
    + destruct Hs as [[= -> ->]|(w & _ & _ & [= -> ->] & ?)]; lra.
    + intros v Hv Hval. destruct (have_index v Hv) as (i & bx & Hi & _ & Ev). by apply (Hc i Hi v Ev Hval).
    + destruct Hs as [[= -> ->]|(w & ? & ? & [= -> ->] & ?)]; [by left|right]. exists w. done.
Qed.
End Ray.

(** ** Safety *)
Section Safety.
Variable sti : N → R.
Hypothesis Hprop : ∀ i bx, b_aabbs b !! i = Some bx → proper bx.
Variable safety0 : R.
Definition scov (s : R) (i : nat) : Prop :=
  ∀ v bx, dau !! i = Some v → b_aabbs b !! i = Some bx → (s <= bsafety bx p ∨ s <= sti v)%R.
Definition sinv (s : R) : Prop := (s <= safety0)%R ∧ (s = safety0 ∨ ∃ v, v ∈ dau ∧ s = sti v).
Lemma safety_leaf_ok s prims : sinv s → (∀ i, i ∈ prims → i < length (b_aabbs b)) →
  ∃ s', safety_leaf b dau p sti s prims = Some (s', false) ∧ sinv s' ∧ (s' <= s)%R ∧ ∀ i, i ∈ prims → scov s' i.
Proof.
  revert s. induction prims as [|i r IH]; intros s Hs Hp.
  - exists s. split; [done|]. split_and!; [done|lra|]. intros i Hi. by apply elem_of_nil in Hi.
  - destruct (have_box i) as (bx & v & Ex & Ev); [apply Hp; left|]. cbn [safety_leaf]. rewrite Ex. cbn [mbind option_bind].
    assert (∀ s1, sinv s1 → (s1 <= s)%R → scov s1 i → ∃ s', safety_leaf b dau p sti s1 r = Some (s', false) ∧
      sinv s' ∧ (s' <= s)%R ∧ ∀ j, j ∈ i :: r → scov s' j) as K.
    { intros s1 Hs1 Hle Hc. destruct (IH s1 Hs1) as (s' & E & Hs' & Hle' & Hc'); [intros j Hj; apply Hp; by right|].
      exists s'. split; [done|]. split_and!; [done|lra|]. intros j [-> | Hj]%elem_of_cons; [|by apply Hc'].
      intros w bw Hw Hbw. destruct (Hc w bw Hw Hbw); [left|right]; lra. }
    destruct (rltb (bsafety bx p) s) eqn:Eh.
    + rewrite Ev. cbn [mbind option_bind]. destruct Hs as [Hs1 Hs2]. destruct (rltb (sti v) s) eqn:El.
      * apply rltb_true in El. apply K; [|lra|].
        -- split; [lra|]. right. exists v. split; [by eapply elem_of_list_lookup_2|done].
        -- intros w bw Hw _. right. assert (w = v) as -> by congruence. lra.
      * apply rltb_false in El. apply K; [done|lra|]. intros w bw Hw _. right. assert (w = v) as -> by congruence. lra.
    + apply rltb_false in Eh. apply K; [done|lra|]. intros w bw _ Hbw. left. assert (bw = bx) as -> by congruence. lra.
Qed.
Theorem safety_ok : ∃ s, (∀ lim, S d ≤ lim → compute_safety b dau p sti safety0 lim = Some s) ∧
  (s <= safety0)%R ∧ (∀ v bx, daughter b dau v bx → (s <= bsafety bx p ∨ s <= sti v)%R) ∧
  (s = safety0 ∨ ∃ v, v ∈ dau ∧ s = sti v).
Proof.
  destruct (run_ok (safety_leaf b dau p sti) (safety_push b p) b d Hb sinv scov (λ _, False)) with (s := safety0) as (s & stop & E & H).
  - intros s prims Hs Hp. destruct (safety_leaf_ok s prims Hs Hp) as (s' & E & Hs' & Hle & Hc). exists s', false. split; [done|].
    split_and!; [done..|]. intros i Hi v bx Hv Hbx. destruct (Hi v bx Hv Hbx); [left|right]; lra.
  - intros s id bl br Hs El Er. unfold safety_push. rewrite El, Er. cbn [mbind option_bind].
    exists (rltb (bsafety bl p) s), (rltb (bsafety br p) s), (rltb (bsafety br p) (bsafety bl p)). split; [done|].
    split; intros Hn i bi Hi Hle v bx Hv Hbx; apply rltb_false in Hn; left; assert (bx = bi) as -> by congruence.
    all: assert (proper bi) as Hpr by (by eapply Hprop); pose proof (bsafety_mono _ _ p Hpr Hle); lra.
  - split; [lra|by left].
  - destruct stop; [done|]. destruct H as [Hs Hc]. exists s. split.
    { intros lim Hlim. unfold compute_safety. by rewrite (E lim Hlim). }
    destruct Hs as [Hs1 Hs2]. split_and!; [done| |done].
    intros v bx (i & Hbx & Hv). apply (Hc i); [by eapply lookup_lt_Some|done|done].
Qed.
End Safety.
End Query.

(** ** The constructor *)
Lemma depth_bound n depth d : bvh_depth n depth = Some d → (d ≤ 32)%Z.
Proof. unfold bvh_depth, BVH_MAX_DEPTH. destruct (if (depth =? 0)%Z then _ else _); cbn; [|done]. intros [= <-]. lia. Qed.
Theorem make_ok sp boxes depth b : splits sp → bvh_make sp boxes depth = Some b →
  b_aabbs b = boxes ∧ ∃ d, bvh_ok b d ∧ S d ≤ 30.
Proof.
  unfold bvh_make. intros Hsp. destruct (length boxes =? 0); [done|]. destruct (bvh_depth (length boxes) depth) as [d|] eqn:Ed; cbn [mbind option_bind]; [|done].
  destruct ((0 <=? d)%Z && (d <? 30)%Z) eqn:E; [|done]. apply andb_prop in E as [E1%Z.leb_le E2%Z.ltb_lt].
  destruct (build_ok sp Hsp boxes (Z.to_nat d)) as (b' & Eb & Ha & Hok). rewrite Eb. intros [= <-]. split; [done|].
  exists (Z.to_nat d). split; [done|]. lia.
Qed.
Theorem make_total sp boxes depth : splits sp → 1 ≤ length boxes →
  (depth = 0%Z → 2 ≤ length boxes ∧ (Z.of_nat (length boxes) < 2 ^ 31)%Z) → (0 ≤ depth < 30)%Z → is_Some (bvh_make sp boxes depth).
Proof.
  intros Hsp Hn H0 Hd. unfold bvh_make. destruct (Nat.eqb_spec (length boxes) 0); [lia|].
  assert (∃ d, bvh_depth (length boxes) depth = Some d ∧ (0 ≤ d < 30)%Z) as (d & Ed & Hdd).
  { unfold bvh_depth. destruct (Z.eqb_spec depth 0) as [->|Hz]; unfold BVH_MAX_DEPTH.
    - destruct (H0 eq_refl) as [H1 H2]. assert (1 ≤ length boxes / 2) by (by apply Nat.div_le_lower_bound).
      destruct (Nat.eqb_spec (length boxes / 2) 0); [lia|]. cbn [mbind option_bind]. eexists; split; [done|].
      assert (Nat.log2 (length boxes / 2) < 30) as Hlog; [|lia]. apply Nat.log2_lt_pow2; [lia|].
      apply Nat2Z.inj_lt. rewrite Nat2Z.inj_pow, Nat2Z.inj_div. change (Z.of_nat 2) with 2%Z. change (Z.of_nat 30) with 30%Z.
      apply Z.div_lt_upper_bound; [lia|]. exact H2.
    - cbn [mbind option_bind]. eexists; split; [done|]. lia. }
  rewrite Ed. cbn [mbind option_bind]. destruct (Z.leb_spec 0 d); [|lia]. destruct (Z.ltb_spec d 30); [|lia]. cbn [andb].
  destruct (build_ok sp Hsp boxes (Z.to_nat d)) as (b & E & _). rewrite E. by eexists.
Qed.

(** ** Splitting functions *)
Lemma longest_splits part : partitions part → splits (split_longest_axis part).
Proof. intros H boxes seg node. unfold split_longest_axis. destruct (H (λ i, rltb (comp (closest_axis (bsize node)) (bcenter (box_at boxes i)) - comp (closest_axis (bsize node)) (bcenter node)) 0) seg) as (? & ? & _). done. Qed.
Lemma largest_splits part : partitions part → splits (split_largest_distance part).
Proof. intros H boxes seg node. unfold split_largest_distance. match goal with |- context [part ?f seg] => destruct (H f seg) as (? & ? & _) end. done. Qed.
Lemma sah_splits part srt : partitions part → sorts srt → splits (split_sah part srt).
Proof.
  intros H Hs boxes seg node. unfold sorts in Hs. unfold split_sah. cbv zeta.
  set (s2 := srt (sorter boxes 2) _). assert (s2 ≡ₚ seg) as E by (unfold s2; by rewrite !Hs).
  destruct (scan_axis boxes 2 s2 _).2 as [[axis obj]|]; cbn [fst snd].
  - destruct (H (λ i, sorter boxes axis i obj) s2) as (E2 & L & _). split; [by rewrite E2|]. by rewrite <- (Permutation_length E).
  - split; [done|]. by rewrite (Permutation_length E).
Qed.
Lemma balance_const nobj k : k < nobj → balance nobj k = (Z.of_nat nobj / 2)%Z.
Proof. intros H. unfold balance. rewrite (Z.div_small (Z.of_nat k)) by lia. pose proof (Z.div_pos (Z.of_nat nobj) 2). lia. Qed.
Lemma barea_mono a b : proper a → box_le a b → (0 <= barea a <= barea b)%R.
Proof.
  intros Ha Hle. apply (box_le_corners a b Ha) in Hle. destruct Ha as (h1 & h2 & h3). unfold barea, bsize. cbn [vx vy vz vsub]. 
  destruct Hle as (? & ? & ? & ? & ? & ?). split; [nra|]. 
  assert (∀ x y x' y', 0 <= x <= x' → 0 <= y <= y' → x * y <= x' * y')%R as K by (intros; apply Rmult_le_compat; lra).
  pose proof (K (vx (bmax a) - vx (bmin a)) (vy (bmax a) - vy (bmin a)) (vx (bmax b) - vx (bmin b)) (vy (bmax b) - vy (bmin b)))%R.
  pose proof (K (vy (bmax a) - vy (bmin a)) (vz (bmax a) - vz (bmin a)) (vy (bmax b) - vy (bmin b)) (vz (bmax b) - vz (bmin b)))%R.
  pose proof (K (vz (bmax a) - vz (bmin a)) (vx (bmax a) - vx (bmin a)) (vz (bmax b) - vz (bmin b)) (vx (bmax b) - vx (bmin b)))%R.
  lra.
Qed.

Section Areas.
Variable boxes : list aabb.
Hypothesis Hpr : ∀ i, proper (box_at boxes i).
Lemma union_proper a b : proper a → proper b → proper (bunion a b).
Proof.
  intros Ha Hb. unfold proper in *. unfold bunion. cbn. unfold Rmin, Rmax. repeat destruct (Rle_dec _ _); lra.
Qed.
Lemma box_le_refl a : box_le a a.
Proof. by intros q. Qed.
Lemma box_le_trans a b c : box_le a b → box_le b c → box_le a c.
Proof. intros H1 H2 q Hq. auto. Qed.
Lemma foldl_least c : ∀ l b, proper b → box_le b c → (∀ j, j ∈ l → box_le (box_at boxes j) c) →
  proper (foldl (λ b j, bunion b (box_at boxes j)) b l) ∧ box_le (foldl (λ b j, bunion b (box_at boxes j)) b l) c.
Proof.
  induction l as [|j l IH]; intros b Hb Hle H; [done|]. cbn [foldl]. apply IH.
  - by apply union_proper.
  - apply union_least; [done|done|done|]. apply H. left.
  - intros i Hi. apply H. by right.
Qed.
Lemma foldr_upper b : proper b → ∀ l, proper (foldr (λ j b, bunion b (box_at boxes j)) b l) ∧
  ∀ j, j ∈ l → box_le (box_at boxes j) (foldr (λ j b, bunion b (box_at boxes j)) b l).
Proof.
  intros Hb. induction l as [|j l [IH1 IH2]]; cbn [foldr].
  - split; [done|]. intros j Hj. by apply elem_of_nil in Hj.
  - split; [by apply union_proper|]. intros i [-> | Hi]%elem_of_cons; [intros q; apply union_r|].
    eapply box_le_trans; [by apply IH2|]. intros q. apply union_l.
Qed.
Lemma foldr_least c b : proper b → box_le b c → ∀ l, (∀ j, j ∈ l → box_le (box_at boxes j) c) →
  proper (foldr (λ j b, bunion b (box_at boxes j)) b l) ∧ box_le (foldr (λ j b, bunion b (box_at boxes j)) b l) c.
Proof.
  intros Hb Hbc. induction l as [|j l IH]; intros H; cbn [foldr]; [done|].
  destruct IH as [IH1 IH2]; [intros i Hi; apply H; by right|]. split; [by apply union_proper|].
  apply union_least; [done|done|done|]. apply H. left.
Qed.
Lemma sweep_ok seg l r : (l, r) ∈ sweep boxes seg →
  (0 <= l <= area_right boxes seg ∧ 0 <= r <= area_right boxes seg)%R.
Proof.
  unfold sweep. intros (k & [= -> ->] & Hk)%elem_of_list_fmap. apply elem_of_seq in Hk.
  assert (∃ e g, rev seg = e :: g ∧ e ∈ seg ∧ (k < length seg → ∃ g', rev (drop k seg) = e :: g')) as (e & g & Er & He & Hdr).
  { destruct (rev seg) as [|e g] eqn:E.
    - apply (f_equal length) in E. rewrite rev_length in E. cbn in E. lia.
    - exists e, g. split; [done|]. assert (seg = rev g ++ [e]) as -> by (rewrite <- (rev_involutive seg), E; done).
      split; [apply elem_of_app; right; by apply elem_of_list_singleton|]. intros Hlt.
      rewrite app_length in Hlt. cbn in Hlt. rewrite drop_app_le by lia. rewrite rev_app_distr. cbn. eauto. }
  set (c := foldr (λ j b, bunion b (box_at boxes j)) (box_at boxes e) seg).
  assert (area_right boxes seg = barea c) as Ec by (unfold area_right; by rewrite Er).
  destruct (foldr_upper (box_at boxes e) (Hpr e) seg) as [Pc Uc]. fold c in Pc, Uc. rewrite Ec. split.
  - unfold area_of. destruct (take k seg) as [|i r] eqn:E.
    + pose proof (barea_mono c c Pc (box_le_refl c)). lra.
    + assert (∀ j, j ∈ i :: r → j ∈ seg) as Hin.
      { intros j Hj. rewrite <- E in Hj. apply elem_of_take in Hj as (x & Hx & _). by eapply elem_of_list_lookup_2. }
      destruct (foldl_least c r (box_at boxes i) (Hpr i)) as [P1 P2]; [apply Uc, Hin; left|intros j Hj; apply Uc, Hin; by right|].
      by apply barea_mono.
  - destruct Hdr as [g' Hg]; [lia|]. unfold area_right. rewrite Hg.
    destruct (foldr_least c (box_at boxes e) (Hpr e) (Uc e He) (drop k seg)) as [P1 P2].
    { intros j Hj. apply Uc. apply elem_of_list_lookup in Hj as [x Hx]. rewrite lookup_drop in Hx. by eapply elem_of_list_lookup_2. }
    by apply barea_mono.
Qed.
End Areas.
