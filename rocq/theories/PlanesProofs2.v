(** Proofs about planes: distances of Planes and Plane, the shells. *)
From Coq Require Import Reals Lra Lia Bool.
From stdpp Require Import base list option numbers tactics.
From Verif Require Import Real3 BoxModel AABBModel PlanesModel PlanesSpec PlanesProofs.
Import stdpp.list.
Local Open Scope R_scope.

(** When the smallest exit is known. *)
Lemma leaves_of_min inf pls p d D :
  cut (halves pls) p ->
  D <= inf -> (forall pl, In pl pls -> 0 < pl_proj pl d -> D <= - pl_dist pl p / pl_proj pl d) ->
  (D = inf \/ exists pl, In pl pls /\ 0 < pl_proj pl d /\ D = - pl_dist pl p / pl_proj pl d) ->
  leaves inf (cut (halves pls)) p d D.
Proof.
  intros Hp Hinf Hmin Hat. rewrite cut_iff in Hp.
  assert (Hin : forall u, 0 <= u <= D -> cut (halves pls) (along p d u)).
  { intros u Hu. apply cut_iff. intros pl Hi. rewrite dist_along. specialize (Hp _ Hi).
    destruct (Rlt_le_dec 0 (pl_proj pl d)) as [Hc|Hc]; [|nra].
    specialize (Hmin _ Hi Hc). assert (u * pl_proj pl d <= - pl_dist pl p); [|lra].
    apply (Rmult_le_compat_r (pl_proj pl d)) in Hmin; [|lra].
    replace (- pl_dist pl p / pl_proj pl d * pl_proj pl d) with (- pl_dist pl p) in Hmin by (field; lra). nra. }
  destruct Hat as [->|(pl & Hi & Hc & E)].
  - right. split; auto.
  - destruct (Req_dec D inf) as [->|Hne]; [right; split; auto|]. left. split; [lra|].
    pose proof (Hp _ Hi) as Hpl.
    assert (0 <= D). { rewrite E. unfold Rdiv. apply Rmult_le_pos; [lra|]. apply Rlt_le, Rinv_0_lt_compat, Hc. }
    split; auto. split; auto. intros u Hu Hcut. rewrite cut_iff in Hcut. specialize (Hcut _ Hi). rewrite dist_along in Hcut.
    assert (D * pl_proj pl d = - pl_dist pl p) by (rewrite E; field; lra). nra.
Qed.

(** Planes::Distance(point, direction) *)
Lemma quot_sign a b : 0 < a -> b <> 0 -> (0 <= a / b <-> 0 < b).
Proof.
  intros Ha Hb. split; intros H.
  - destruct (Rlt_le_dec 0 b); auto. exfalso. assert (b < 0) by lra.
    assert (/ b < 0) by (apply Rinv_lt_0_compat; lra). unfold Rdiv in H. nra.
  - unfold Rdiv. apply Rmult_le_pos; [lra|]. apply Rlt_le, Rinv_0_lt_compat, H.
Qed.
Lemma planes_distance_leaves inf P p d : cut_open (halves (ps_list P)) p ->
  leaves inf (cut (halves (ps_list P))) p d (planes_distance inf P p d).
Proof.
  intros Hp. rewrite cut_open_iff in Hp.
  destruct (fold_min (λ pl, 0 < pl_proj pl d) (λ pl, - pl_dist pl p / pl_proj pl d)
    (λ best pl, if reqb (pl_proj pl d) 0 then best else
      let t := - pl_dist pl p / pl_proj pl d in if rgeb t 0 && rltb t best then t else best) (ps_list P) inf) as (H1 & H2 & H3).
  { intros best pl Hi. cbn. specialize (Hp _ Hi). destruct (reqb_spec (pl_proj pl d) 0) as [E|E].
    - right. split; auto. intros [? _]. lra.
    - pose proof (quot_sign (- pl_dist pl p) (pl_proj pl d) ltac:(lra) E) as Q.
      destruct (rgeb_spec (- pl_dist pl p / pl_proj pl d) 0); cbn.
      + destruct (rltb_spec (- pl_dist pl p / pl_proj pl d) best).
        * left. split; [apply Q; lra|auto].
        * right. split; auto. intros [_ ?]. auto.
      + right. split; auto. intros [? _]. apply Q in H. lra. }
  apply leaves_of_min; auto. apply cut_iff. intros pl Hi. specialize (Hp _ Hi). lra.
Qed.

(** Planes::Distance<..>(point) *)
Lemma planes_safety_min inf P p : cut (halves (ps_list P)) p ->
  let r := planes_safety inf false P p in
  r <= inf /\ (forall pl, In pl (ps_list P) -> r <= - pl_dist pl p) /\ (r = inf \/ exists pl, In pl (ps_list P) /\ r = - pl_dist pl p).
Proof.
  intros Hp. rewrite cut_iff in Hp.
  destruct (fold_min (λ pl, True) (λ pl, - pl_dist pl p)
    (λ best pl, let t := if negb false then - pl_dist pl p else pl_dist pl p in if rgeb t 0 && rltb t best then t else best) (ps_list P) inf) as (H1 & H2 & H3).
  { intros best pl Hi. cbn. specialize (Hp _ Hi). destruct (rgeb_spec (- pl_dist pl p) 0); [|lra]. cbn.
    destruct (rltb_spec (- pl_dist pl p) best); [left; auto|right; split; auto; intros [_ ?]; auto]. }
  cbn in *. split; auto. split; auto. destruct H3 as [|(pl & ? & _ & ?)]; [auto|right; eauto].
Qed.
Lemma planes_safety_true inf P p :
  let r := planes_safety inf true P p in
  r <= inf /\ (forall pl, In pl (ps_list P) -> 0 <= pl_dist pl p -> r <= pl_dist pl p) /\
  (r = inf \/ exists pl, In pl (ps_list P) /\ 0 <= pl_dist pl p /\ r = pl_dist pl p).
Proof.
  destruct (fold_min (λ pl, 0 <= pl_dist pl p) (λ pl, pl_dist pl p)
    (λ best pl, let t := if negb true then - pl_dist pl p else pl_dist pl p in if rgeb t 0 && rltb t best then t else best) (ps_list P) inf) as (H1 & H2 & H3).
  { intros best pl Hi. cbn. destruct (rgeb_spec (pl_dist pl p) 0); cbn; [|right; split; auto; intros [? _]; lra].
    destruct (rltb_spec (pl_dist pl p) best); [left; split; [lra|auto]|right; split; auto; intros [_ ?]; auto]. }
  auto.
Qed.

(** Set and FlipSign *)
Lemma set_plane_spec normal origin : fix_zeroes normal <> vzero ->
  let pl := set_plane normal origin in
  vdot (pl_n pl) (pl_n pl) = 1 /\ forall q, pl_dist pl q = vdot (fix_zeroes normal) (vsub q origin) / vmag (fix_zeroes normal).
Proof.
  intros Hf. cbv zeta. unfold set_plane. cbv zeta. set (f := fix_zeroes normal) in *. clearbody f. unfold pl_dist. cbn [pl_n pl_d].
  assert (Hm : 0 < vmag f).
  { destruct (Rle_lt_dec (vmag f) 0) as [H|H]; auto. exfalso. apply Hf. pose proof (vmag_nonneg f). assert (vmag f = 0) by lra.
    pose proof (vmag_sqr f) as Q. rewrite H1 in Q. pose proof (vx_le_mag f); pose proof (vy_le_mag f); pose proof (vz_le_mag f).
    rewrite H1 in *. apply v3_eq; cbn; apply Rle_antisym; match goal with |- context [vx f] => pose proof (abs_le_inv _ _ H2) | |- context [vy f] => pose proof (abs_le_inv _ _ H3) | |- context [vz f] => pose proof (abs_le_inv _ _ H4) end; lra. }
  pose proof (vmag_sqr f) as Q. set (m := vmag f) in *. clearbody m. split.
  - replace (vdot (vscale (1 / m) f) (vscale (1 / m) f)) with (1 / m * (1 / m) * vdot f f) by (unfold vdot, vscale; cbn; ring).
    rewrite <- Q. field. lra.
  - intros q. unfold vdot, vscale, vsub; cbn. field. lra.
Qed.
Lemma flip_dist pl q : pl_dist (flip_sign pl) q = - pl_dist pl q.
Proof. unfold pl_dist, flip_sign, vneg, vscale, vdot. cbn. ring. Qed.

(** Shell: contains and inside *)
Lemma shell_kernel_spec fi pls p ci co :
  shell_kernel fi pls p ci co =
  (if fi then ci && forallb (λ pl, rltb (pl_dist pl p) (0 - kHalfTolerance)) pls else ci,
   co || existsb (λ pl, rgtb (pl_dist pl p) (if fi then 0 + kHalfTolerance else 0)) pls).
Proof.
  unfold shell_kernel. revert ci co. induction pls as [|pl pls IH]; intros ci co; cbn.
  - destruct fi; now rewrite ?andb_true_r, orb_false_r.
  - rewrite IH. destruct fi; now rewrite ?andb_assoc, orb_assoc.
Qed.

(** Shell: safeties *)
Lemma shell_safety_out_min pls p s0 : let r := shell_safety_out pls p s0 in
  r <= s0 /\ (forall pl, In pl pls -> r <= - pl_dist pl p) /\ (r = s0 \/ exists pl, In pl pls /\ r = - pl_dist pl p).
Proof.
  destruct (fold_min (λ pl, True) (λ pl, - pl_dist pl p)
    (λ s pl, if rltb (- pl_dist pl p) s then - pl_dist pl p else s) pls s0) as (H1 & H2 & H3).
  { intros best pl Hi. cbn. destruct (rltb_spec (- pl_dist pl p) best); [left; auto|right; split; auto; intros [_ ?]; auto]. }
  cbn. split; auto. split; auto. destruct H3 as [|(pl & ? & _ & ?)]; [auto|right; eauto].
Qed.
Lemma shell_safety_in_max pls p s0 : let r := shell_safety_in pls p s0 in
  s0 <= r /\ (forall pl, In pl pls -> pl_dist pl p <= r) /\ (r = s0 \/ exists pl, In pl pls /\ r = pl_dist pl p).
Proof.
  unfold shell_safety_in. revert s0. induction pls as [|pl pls IH]; intros s0; cbn.
  - split; [lra|]. split; [intros ? []|auto].
  - destruct (rgtb_spec (pl_dist pl p) s0); destruct (IH (pl_dist pl p)) as (A & B & C); destruct (IH s0) as (A' & B' & C'); cbn in *.
    + split; [lra|]. split; [intros q [<-|Hq]; [lra|auto]|]. right. destruct C as [->|(q & ? & ?)]; [exists pl; auto|exists q; auto].
    + split; [lra|]. split; [intros q [<-|Hq]; [lra|auto]|]. destruct C' as [->|(q & ? & ?)]; [auto|right; exists q; auto].
Qed.

(** Shell: the closest face *)
Lemma closest_gen pls p k s c :
  let r := foldl (closer_step p) (s, c) (imap (λ i pl, ((k + i)%nat, pl)) pls) in
  r.1 <= s /\ (forall pl, In pl pls -> r.1 <= Rabs (pl_dist pl p)) /\
  ((r = (s, c)) \/ exists i pl, pls !! i = Some pl /\ r = (Rabs (pl_dist pl p), Some (k + i)%nat) /\ Rabs (pl_dist pl p) < s /\
                     forall j q, pls !! j = Some q -> (j < i)%nat -> Rabs (pl_dist pl p) < Rabs (pl_dist q p)).
Proof.
  revert k s c. induction pls as [|pl pls IH]; intros k s c; cbv zeta.
  - cbn. split; [lra|]. split; [intros ? []|auto].
  - rewrite imap_cons. cbn [foldl]. rewrite Nat.add_0_r.
    replace (imap ((λ i pl0, ((k + i)%nat, pl0)) ∘ Datatypes.S) pls) with (imap (λ i pl, ((Datatypes.S k + i)%nat, pl)) pls)
      by (apply imap_ext; intros; cbn; f_equal; lia).
    change (closer_step p (s, c) (k, pl)) with (if rltb (Rabs (pl_dist pl p)) s then (Rabs (pl_dist pl p), Some k) else (s, c)).
    destruct (rltb_spec (Rabs (pl_dist pl p)) s) as [Hl|Hl].
    + destruct (IH (Datatypes.S k) (Rabs (pl_dist pl p)) (Some k)) as (A & B & C).
      split; [lra|]. split; [intros q [<-|Hq]; [lra|auto]|]. right.
      destruct C as [E|(i & q & Hq & E & Hlt & Hj)].
      * exists 0%nat, pl. rewrite E. rewrite Nat.add_0_r. split; [auto|]. split; [auto|]. split; [auto|]. intros. lia.
      * exists (Datatypes.S i), q. split; [auto|]. split; [rewrite E; do 2 f_equal; lia|]. split; [lra|].
        intros [|j] q' Hq' Hlt'; cbn in Hq'; [congruence|]. apply (Hj j); [auto|lia].
    + destruct (IH (Datatypes.S k) s c) as (A & B & C).
      split; [lra|]. split; [intros q [<-|Hq]; [lra|auto]|].
      destruct C as [E|(i & q & Hq & E & Hlt & Hj)]; [auto|right].
      exists (Datatypes.S i), q. split; [auto|]. split; [rewrite E; do 2 f_equal; lia|]. split; [lra|].
      intros [|j] q' Hq' Hlt'; cbn in Hq'; [injection Hq' as <-; lra|]. apply (Hj j); [auto|lia].
Qed.

(** Shell: distance to out *)
Lemma shell_out_leaves inf pls p d : cut (halves pls) p -> steady kAbsorb (halves pls) d ->
  leaves inf (cut (halves pls)) p d (shell_to_out inf pls p d).
Proof.
  intros Hp Hs. rewrite steady_iff in Hs. pose proof kHalfTolerance_pos. pose proof kAbsorb_pos.
  destruct (fold_min (λ pl, 0 < pl_proj pl d) (λ pl, - pl_dist pl p / pl_proj pl d)
    (λ out pl, let out := if rgtb (pl_dist pl p) kHalfTolerance then -1 else out in
      let v := shell_vdist pl p d in if rgtb (pl_proj pl d) 0 && rltb v out then v else out) pls inf) as (H1 & H2 & H3).
  { intros best pl Hi. cbn. rewrite cut_iff in Hp. specialize (Hp _ Hi). unfold shell_vdist.
    destruct (rgtb_spec (pl_dist pl p) kHalfTolerance); [lra|].
    destruct (rgtb_spec (pl_proj pl d) 0) as [Hc|Hc]; cbn; [|right; split; auto; intros [? _]; lra].
    destruct (Hs _ Hi) as [E|E]; [lra|]. rewrite nz_large by auto.
    destruct (rltb_spec (- pl_dist pl p / pl_proj pl d) best); [left; split; [lra|auto]|right; split; auto; intros [_ ?]; auto]. }
  apply leaves_of_min; auto.
Qed.
Lemma shell_out_wrong inf pls p d : (exists pl, In pl pls /\ kHalfTolerance < pl_dist pl p) -> shell_to_out inf pls p d <= -1.
Proof.
  unfold shell_to_out. intros (pl & Hi & Hd). apply in_split in Hi as (l1 & l2 & ->). rewrite foldl_app. cbn.
  generalize (foldl (λ out pl0, let out := if rgtb (pl_dist pl0 p) kHalfTolerance then -1 else out in
      let v := shell_vdist pl0 p d in if rgtb (pl_proj pl0 d) 0 && rltb v out then v else out) inf l1). intros out.
  destruct (rgtb_spec (pl_dist pl p) kHalfTolerance); [|lra].
  assert (Hstart : forall x, (if rgtb (pl_proj pl d) 0 && rltb x (-1) then x else -1) <= -1).
  { intros x. destruct (rgtb _ _); cbn; [|lra]. destruct (rltb_spec x (-1)); lra. }
  specialize (Hstart (shell_vdist pl p d)). revert Hstart. generalize (if rgtb (pl_proj pl d) 0 && rltb (shell_vdist pl p d) (-1) then shell_vdist pl p d else -1).
  induction l2 as [|q l2 IH]; intros x Hx; cbn; [auto|]. apply IH.
  destruct (rgtb (pl_proj q d) 0); cbn.
  - destruct (rltb_spec (shell_vdist q p d) (if rgtb (pl_dist q p) kHalfTolerance then -1 else x)); destruct (rgtb (pl_dist q p) kHalfTolerance); lra.
  - destruct (rgtb (pl_dist q p) kHalfTolerance); lra.
Qed.
