(** Proofs about plane shells: distance to in, normals; single planes. *)
From Coq Require Import Reals Lra Lia Bool.
From stdpp Require Import base list option numbers tactics.
From Verif Require Import Real3 BoxModel AABBModel PlanesModel PlanesSpec PlanesProofs PlanesProofs2.
Import stdpp.list.
Local Open Scope R_scope.

Definition settled (p : v3) (pl : plane) : Prop := kHalfTolerance < pl_dist pl p \/ pl_dist pl p <= - kHalfTolerance.
Lemma shell_leaving_iff pls p d : shell_leaving pls p d = true <->
  exists pl, In pl pls /\ ((kHalfTolerance < pl_dist pl p /\ 0 <= pl_proj pl d) \/ (- kHalfTolerance < pl_dist pl p /\ 0 < pl_proj pl d)).
Proof.
  assert (G : forall b, foldl (λ done pl,
    let done := done || (rgtb (pl_dist pl p) (0 + kHalfTolerance) && rgeb (pl_proj pl d) 0) in
    done || (rgtb (pl_dist pl p) (0 - kHalfTolerance) && rgtb (pl_proj pl d) 0)) b pls = true <-> b = true \/
  exists pl, In pl pls /\ ((kHalfTolerance < pl_dist pl p /\ 0 <= pl_proj pl d) \/ (- kHalfTolerance < pl_dist pl p /\ 0 < pl_proj pl d))).
  { induction pls as [|pl pls IH]; intros b; cbn.
    - split; [auto|intros [?|(? & [] & _)]; auto].
    - rewrite IH. rewrite !orb_true_iff, !andb_true_iff.
      unfold rgtb, rgeb. rewrite !rltb_true, rleb_true, Rplus_0_l, Rminus_0_l. split.
      + intros [[[?|?]|?]|(q & ? & ?)]; [auto|right; exists pl; tauto|right; exists pl; tauto|right; exists q; tauto].
      + intros [?|(q & [<-|?] & ?)]; [auto|tauto|right; exists q; tauto]. }
  unfold shell_leaving. rewrite G. split; [intros [?|?]; [discriminate|auto]|auto].
Qed.

(** What one plane says about the ray. *)
Lemma plane_on_ray pl p d u : settled p pl -> (pl_proj pl d = 0 \/ kAbsorb <= Rabs (pl_proj pl d)) ->
  ~ ((kHalfTolerance < pl_dist pl p /\ 0 <= pl_proj pl d) \/ (- kHalfTolerance < pl_dist pl p /\ 0 < pl_proj pl d)) -> 0 <= u ->
  (pl_dist pl (along p d u) <= 0 <->
   (- kHalfTolerance < pl_dist pl p /\ pl_proj pl d <= 0 -> shell_vdist pl p d <= u) /\
   (pl_dist pl p <= - kHalfTolerance /\ 0 < pl_proj pl d -> u <= shell_vdist pl p d)).
Proof.
  intros Hs Hc Hl Hu. rewrite dist_along. unfold shell_vdist. pose proof kHalfTolerance_pos. pose proof kAbsorb_pos.
  destruct Hs as [Hs|Hs].
  - assert (Hn : pl_proj pl d < 0). { destruct (Rlt_le_dec (pl_proj pl d) 0); [auto|exfalso; apply Hl; left; split; lra]. }
    destruct Hc as [?|Hc]; [lra|]. rewrite nz_large by auto.
    set (x := pl_dist pl p) in *. set (c := pl_proj pl d) in *. clearbody x c.
    assert (E : - x / c * c = - x) by (field; lra). set (v := - x / c) in *. clearbody v. split.
    + intros H1. split; [intros _|intros [? ?]; lra]. nra.
    + intros [H1 _]. specialize (H1 ltac:(split; lra)). nra.
  - set (x := pl_dist pl p) in *. set (c := pl_proj pl d) in *.
    destruct (Rlt_le_dec 0 c) as [Hp|Hp].
    + destruct Hc as [?|Hc]; [lra|]. rewrite nz_large by auto. clearbody x c.
      assert (E : - x / c * c = - x) by (field; lra). set (v := - x / c) in *. clearbody v. split.
      * intros H1. split; [intros [? ?]; lra|intros _]. nra.
      * intros [_ H1]. specialize (H1 ltac:(split; lra)). nra.
    + split; [|intros _; nra]. intros _. split; intros [? ?]; lra.
Qed.
Lemma shell_range_spec pls p d : (forall pl, In pl pls -> settled p pl) ->
  (forall pl, In pl pls -> pl_proj pl d = 0 \/ kAbsorb <= Rabs (pl_proj pl d)) ->
  (forall pl, In pl pls -> ~ ((kHalfTolerance < pl_dist pl p /\ 0 <= pl_proj pl d) \/ (- kHalfTolerance < pl_dist pl p /\ 0 < pl_proj pl d))) ->
  forall smin smax,
  match shell_range pls p d smin smax with
  | None => forall u, 0 <= u -> ~ (smin <= u <= smax /\ forall pl, In pl pls -> pl_dist pl (along p d u) <= 0)
  | Some (a, b) => (forall u, 0 <= u -> (smin <= u <= smax /\ forall pl, In pl pls -> pl_dist pl (along p d u) <= 0) <-> a <= u <= b) /\
                   smin <= a /\ b <= smax /\ (a = smin \/ 0 < a) /\ (a < 0 -> forall pl, In pl pls -> pl_dist pl p <= - kHalfTolerance)
  end.
Proof.
  induction pls as [|pl pls IH]; intros Hs Hc Hl smin smax; cbn [shell_range].
  - split; [|split; [lra|split; [lra|split; [auto|intros _ ? []]]]]. intros u Hu. split; [tauto|]. intros. split; [auto|intros ? []].
  - pose proof (plane_on_ray pl p d) as One. specialize (Hs pl (or_introl eq_refl)) as Hs0. specialize (Hc pl (or_introl eq_refl)) as Hc0.
    specialize (Hl pl (or_introl eq_refl)) as Hl0.
    assert (One' : forall u, 0 <= u -> pl_dist pl (along p d u) <= 0 <->
      (- kHalfTolerance < pl_dist pl p /\ pl_proj pl d <= 0 -> shell_vdist pl p d <= u) /\
      (pl_dist pl p <= - kHalfTolerance /\ 0 < pl_proj pl d -> u <= shell_vdist pl p d)) by (intros; apply One; auto). clear One.
    assert (Split : forall u, (forall q, In q (pl :: pls) -> pl_dist q (along p d u) <= 0) <->
      pl_dist pl (along p d u) <= 0 /\ (forall q, In q pls -> pl_dist q (along p d u) <= 0)).
    { intros u. split; [intros H; split; [apply H; now left|intros; apply H; now right]|intros [? ?] q [<-|?]; auto]. }
    assert (IH' := IH ltac:(intros; apply Hs; now right) ltac:(intros; apply Hc; now right) ltac:(intros; apply Hl; now right)). clear IH.
    assert (V0 : - kHalfTolerance < pl_dist pl p /\ pl_proj pl d <= 0 -> 0 < shell_vdist pl p d /\ pl_proj pl d < 0).
    { intros [H1 H2]. destruct Hs0 as [H0|H0]; [|lra]. pose proof kHalfTolerance_pos.
      assert (pl_proj pl d < 0). { destruct (Rlt_le_dec (pl_proj pl d) 0); [auto|exfalso; apply Hl0; left; split; lra]. }
      split; [|auto]. unfold shell_vdist. pose proof (nz_neg _ H3). unfold Rdiv.
      assert (/ nz (pl_proj pl d) < 0) by (apply Rinv_lt_0_compat; auto). nra. }
    rewrite Rminus_0_l.
    destruct (rgtb_spec (pl_dist pl p) (- kHalfTolerance)) as [Hp|Hp]; destruct (rgtb_spec (pl_proj pl d) 0) as [Hd|Hd]; cbn.
    + exfalso. apply Hl0. right. split; lra.
    + destruct (V0 ltac:(split; lra)) as [V1 V2].
      destruct (rgtb_spec (shell_vdist pl p d) smax) as [Hv|Hv]; cbn.
      * intros u Hu [Hr Ha]. apply Split in Ha as [Ha _]. apply One' in Ha as [Ha _]; [|auto]. specialize (Ha ltac:(split; lra)). lra.
      * set (smin' := if rgtb (shell_vdist pl p d) smin then shell_vdist pl p d else smin).
        assert (Hm : smin <= smin' /\ shell_vdist pl p d <= smin' /\ (smin' = smin \/ smin' = shell_vdist pl p d)).
        { unfold smin'. destruct (rgtb_spec (shell_vdist pl p d) smin); lra. }
        assert (Eq : forall u, 0 <= u -> (smin <= u <= smax /\ forall q, In q (pl :: pls) -> pl_dist q (along p d u) <= 0) <->
                    (smin' <= u <= smax /\ forall q, In q pls -> pl_dist q (along p d u) <= 0)).
        { intros u Hu. rewrite Split, (One' u Hu). split.
          - intros (Hr & [H1 _] & H2). specialize (H1 ltac:(split; lra)). split; [|auto]. destruct Hm as (_ & _ & [->| ->]); lra.
          - intros (Hr & H2). split; [lra|]. split; [|auto]. split; [intros _; lra|intros [? ?]; lra]. }
        specialize (IH' smin' smax). destruct (shell_range pls p d smin' smax) as [[a b]|].
        -- destruct IH' as (I1 & I2 & I3 & I4 & I5). split; [intros u Hu; rewrite Eq by auto; auto|].
           split; [lra|]. split; [lra|]. split; [destruct I4 as [->|?]; [|auto]; destruct Hm as (_ & ? & [->| ->]); auto|].
           intros Ha. exfalso. lra.
        -- intros u Hu. rewrite Eq by auto. auto.
    + destruct (rltb_spec (shell_vdist pl p d) smin) as [Hv|Hv]; cbn.
      * intros u Hu [Hr Ha]. apply Split in Ha as [Ha _]. apply One' in Ha as [_ Ha]; [|auto]. specialize (Ha ltac:(split; lra)). lra.
      * set (smax' := if rltb (shell_vdist pl p d) smax then shell_vdist pl p d else smax).
        assert (Hm : smax' <= smax /\ smax' <= shell_vdist pl p d /\ (smax' = smax \/ smax' = shell_vdist pl p d)).
        { unfold smax'. destruct (rltb_spec (shell_vdist pl p d) smax); lra. }
        assert (Eq : forall u, 0 <= u -> (smin <= u <= smax /\ forall q, In q (pl :: pls) -> pl_dist q (along p d u) <= 0) <->
                    (smin <= u <= smax' /\ forall q, In q pls -> pl_dist q (along p d u) <= 0)).
        { intros u Hu. rewrite Split, (One' u Hu). split.
          - intros (Hr & [_ H1] & H2). specialize (H1 ltac:(split; lra)). split; [|auto]. destruct Hm as (_ & _ & [->| ->]); lra.
          - intros (Hr & H2). split; [lra|]. split; [|auto]. split; [intros [? ?]; lra|intros _; lra]. }
        specialize (IH' smin smax'). destruct (shell_range pls p d smin smax') as [[a b]|].
        -- destruct IH' as (I1 & I2 & I3 & I4 & I5). split; [intros u Hu; rewrite Eq by auto; auto|].
           split; [lra|]. split; [lra|]. split; [auto|]. intros Ha q [<-|Hq]; [lra|auto].
        -- intros u Hu. rewrite Eq by auto. auto.
    + assert (Eq : forall u, 0 <= u -> (smin <= u <= smax /\ forall q, In q (pl :: pls) -> pl_dist q (along p d u) <= 0) <->
                    (smin <= u <= smax /\ forall q, In q pls -> pl_dist q (along p d u) <= 0)).
      { intros u Hu. rewrite Split, (One' u Hu). split; [tauto|]. intros (Hr & H2). split; [lra|]. split; [|auto]. split; intros [? ?]; lra. }
      specialize (IH' smin smax). destruct (shell_range pls p d smin smax) as [[a b]|].
      * destruct IH' as (I1 & I2 & I3 & I4 & I5). split; [intros u Hu; rewrite Eq by auto; auto|].
        split; [lra|]. split; [lra|]. split; [auto|]. intros Ha q [<-|Hq]; [lra|auto].
      * intros u Hu. rewrite Eq by auto. auto.
Qed.
(** PlaneShell::DistanceToIn within the range [smin, smax] *)
Lemma shell_to_in_spec inf pls p d smin smax : (forall pl, In pl pls -> settled p pl) -> steady kAbsorb (halves pls) d -> smax < inf ->
  let D := shell_to_in inf pls p d smin smax in
  let W u := smin <= u <= smax /\ cut (halves pls) (along p d u) in
  (D = inf /\ forall u, 0 <= u -> ~ W u) \/
  (D < inf /\ 0 <= D /\ W D /\ forall u, 0 <= u < D -> ~ W u) \/
  (D < 0 /\ D = smin /\ cut (halves pls) p).
Proof.
  intros Hs Hc Hi D W. rewrite steady_iff in Hc. pose proof kHalfTolerance_pos as Hh. unfold D, shell_to_in.
  destruct (shell_leaving pls p d) eqn:L.
  - left. split; auto. apply shell_leaving_iff in L as (pl & Hin & HL). intros u Hu [_ H].
    rewrite cut_iff in H. specialize (H _ Hin). rewrite dist_along in H. specialize (Hs _ Hin). unfold settled in Hs.
    destruct HL as [[? ?]|[? ?]]; destruct Hs; nra.
  - assert (Hl : forall pl, In pl pls -> ~ ((kHalfTolerance < pl_dist pl p /\ 0 <= pl_proj pl d) \/ (- kHalfTolerance < pl_dist pl p /\ 0 < pl_proj pl d))).
    { intros pl Hin HL. assert (shell_leaving pls p d = true) by (apply shell_leaving_iff; eauto). congruence. }
    pose proof (shell_range_spec pls p d Hs Hc Hl smin smax) as G.
    assert (WE : forall u, W u <-> (smin <= u <= smax /\ forall pl, In pl pls -> pl_dist pl (along p d u) <= 0)).
    { intros u. unfold W. now rewrite cut_iff. }
    destruct (shell_range pls p d smin smax) as [[a b]|].
    + destruct G as (G1 & G2 & G3 & G4 & G5). destruct (rleb_spec a b) as [Hab|Hab].
      * destruct (Rlt_le_dec a 0) as [Ha|Ha].
        -- right. right. split; [auto|]. split; [destruct G4; lra|]. apply cut_iff. intros pl Hin. specialize (G5 Ha _ Hin). lra.
        -- right. left. split; [lra|]. split; [auto|]. split; [apply WE, G1; lra|]. intros u Hu Hw. apply WE, G1 in Hw; lra.
      * left. split; auto. intros u Hu Hw. apply WE, G1 in Hw; [lra|auto].
    + left. split; auto. intros u Hu Hw. apply WE in Hw. apply (G u Hu Hw).
Qed.

(** Normals *)
Lemma normal_step_far p pl s n : s < pl_dist pl p -> normal_step p pl (s, n) = (pl_dist pl p, pl_n pl).
Proof. intros H. unfold normal_step. destruct (rgtb_spec (pl_dist pl p - s) 0); [auto|lra]. Qed.
Lemma normal_step_near p pl s n : pl_dist pl p <= s - kHalfTolerance -> normal_step p pl (s, n) = (s, n).
Proof.
  intros H. unfold normal_step. pose proof kHalfTolerance_pos. destruct (rgtb_spec (pl_dist pl p - s) 0); [lra|].
  destruct (rltb_spec (Rabs (pl_dist pl p - s)) kHalfTolerance) as [Ha|Ha]; [|auto].
  exfalso. rewrite Rabs_left in Ha by lra. lra.
Qed.
Lemma normal_step_tie p pl s n : pl_dist pl p = s -> - kHalfTolerance <= s -> normal_step p pl (s, n) = (s, vadd n (pl_n pl)).
Proof.
  intros E H. unfold normal_step. rewrite E. pose proof kHalfTolerance_pos. rewrite Rminus_diag_eq by auto. rewrite Rabs_R0.
  destruct (rgtb_spec 0 0); [lra|]. destruct (rltb_spec 0 kHalfTolerance); [|lra]. destruct (rgeb_spec s (- kHalfTolerance)); [auto|lra].
Qed.
Lemma normal_step_max p pl s n : fst (normal_step p pl (s, n)) = Rmax s (pl_dist pl p).
Proof. unfold normal_step. cbn. destruct (rgtb_spec (pl_dist pl p - s) 0); [rewrite Rmax_right|rewrite Rmax_left]; lra. Qed.
