(** Proofs about tetrahedra. *)
From Coq Require Import Reals Lra Lia Bool.
From stdpp Require Import base list option numbers tactics.
From Verif Require Import Real3 BoxModel AABBModel OrbSpec ScaledSpec PlanesModel PlanesSpec PlanesProofs PlanesProofs2 TetModel.
Import stdpp.list.
Local Open Scope R_scope.

(** The plane of a face: a positive multiple of the signed volumes. *)
Lemma face_spec kmin a b c o : 0 <= kmin -> triple a b c o <> 0 ->
  let pl := face_plane kmin a b c o in
  (exists g, 0 < g /\ forall p, pl_dist pl p = - g * (triple a b c o * triple a b c p)) /\
  vdot (pl_n pl) (pl_n pl) <= 1 /\ 0 < vdot (pl_n pl) (pl_n pl) /\ (kmin = 0 -> vdot (pl_n pl) (pl_n pl) = 1).
Proof.
  intros Hk HT. cbv zeta. unfold face_plane, face_normal, vunit, pl_dist. cbn [pl_n pl_d].
  set (N := vcross (vsub b a) (vsub c a)).
  assert (HN : 0 < vdot N N).
  { pose proof (vdot_self_nonneg N) as H. destruct (Req_dec (vdot N N) 0) as [E|E]; [|lra]. exfalso. apply HT.
    unfold triple. fold N. pose proof (vdot_le N (vsub o a)). pose proof (vdot_le N (vscale (-1) (vsub o a))) as H1.
    assert (Hm : vmag N = 0) by (unfold vmag; rewrite E; apply sqrt_0). rewrite Hm in *.
    replace (vdot N (vscale (-1) (vsub o a))) with (- vdot N (vsub o a)) in H1 by (unfold vdot, vscale; cbn; ring). lra. }
  set (k := / R_sqrt.sqrt (vdot N N + kmin)).
  assert (Hs : 0 < R_sqrt.sqrt (vdot N N + kmin)) by (apply sqrt_lt_R0; lra).
  assert (Hkpos : 0 < k) by (apply Rinv_0_lt_compat; auto).
  assert (Hkk : k * k * (vdot N N + kmin) = 1).
  { rewrite <- (sqrt_sqrt (vdot N N + kmin)) by lra. unfold k. field. lra. }
  assert (HkN : k * k * vdot N N <= 1) by nra.
  assert (HkN0 : 0 < k * k * vdot N N) by (apply Rmult_lt_0_compat; nra).
  assert (HkN1 : kmin = 0 -> k * k * vdot N N = 1) by (intros ->; rewrite <- Hkk; ring).
  assert (ET : vdot (vscale k N) (vsub o a) = k * triple a b c o) by (unfold triple; fold N; unfold vdot, vscale; cbn; ring).
  assert (EN : vdot (vscale k N) (vscale k N) = k * k * vdot N N) by (unfold vdot, vscale; cbn; ring).
  assert (EN' : vdot (vneg (vscale k N)) (vneg (vscale k N)) = k * k * vdot N N) by (unfold vdot, vneg, vscale; cbn; ring).
  assert (Ep : forall p, vdot p (vscale k N) + - vdot (vscale k N) a = k * triple a b c p).
  { intros p. unfold triple. fold N. clearbody N k. unfold vdot, vscale, vsub; cbn. ring. }
  assert (Ep' : forall p, vdot p (vneg (vscale k N)) + - vdot (vneg (vscale k N)) a = - k * triple a b c p).
  { intros p. unfold triple. fold N. clearbody N k. unfold vdot, vneg, vscale, vsub; cbn. ring. }
  clearbody k N. rewrite ET. destruct (rgtb_spec (k * triple a b c o) 0) as [Hp|Hp].
  - split; [|rewrite EN'; auto]. exists (k / triple a b c o).
    assert (0 < triple a b c o) by nra. split; [apply Rdiv_lt_0_compat; auto|]. intros p. rewrite Ep'. field. auto.
  - split; [|rewrite EN; auto]. exists (k / (- triple a b c o)).
    assert (triple a b c o < 0) by (destruct (Rtotal_order (triple a b c o) 0) as [?|[?|?]]; [auto|contradiction|nra]).
    split; [apply Rdiv_lt_0_compat; lra|]. intros p. rewrite Ep. field. auto.
Qed.

Section Tetra.
Variables (kmin : R) (a b c e : v3).
Hypothesis Hk : 0 <= kmin.
Hypothesis HT : triple a b c e <> 0.
Let t := mk_tet kmin a b c e.
Lemma cyc1 : triple b c e a = - triple a b c e. Proof. unfold triple, vcross, vsub, vdot; cbn; ring. Qed.
Lemma cyc2 : triple c e a b = triple a b c e. Proof. unfold triple, vcross, vsub, vdot; cbn; ring. Qed.
Lemma cyc3 : triple e a b c = - triple a b c e. Proof. unfold triple, vcross, vsub, vdot; cbn; ring. Qed.
Lemma cyc1n : triple b c e a <> 0. Proof. rewrite cyc1. lra. Qed.
Lemma cyc2n : triple c e a b <> 0. Proof. rewrite cyc2. lra. Qed.
Lemma cyc3n : triple e a b c <> 0. Proof. rewrite cyc3. lra. Qed.

(** Every plane is one of the four faces. *)
Lemma tet_plane_cases (P : plane -> Prop) :
  P (face_plane kmin a b c e) -> P (face_plane kmin b c e a) -> P (face_plane kmin c e a b) -> P (face_plane kmin e a b c) ->
  forall pl, In pl (tet_planes t) -> P pl.
Proof. intros ? ? ? ? pl [<-|[<-|[<-|[<-|[]]]]]; auto. Qed.
Lemma tet_short : short_normals (halves (tet_planes t)).
Proof.
  apply short_iff. apply tet_plane_cases; [apply (face_spec kmin a b c e)|apply (face_spec kmin b c e a)|apply (face_spec kmin c e a b)|apply (face_spec kmin e a b c)];
    auto using cyc1n, cyc2n, cyc3n.
Qed.
Lemma tet_normals_pos pl : In pl (tet_planes t) -> 0 < vdot (pl_n pl) (pl_n pl).
Proof.
  revert pl. apply tet_plane_cases; [apply (face_spec kmin a b c e)|apply (face_spec kmin b c e a)|apply (face_spec kmin c e a b)|apply (face_spec kmin e a b c)];
    auto using cyc1n, cyc2n, cyc3n.
Qed.
Lemma tet_unit : kmin = 0 -> unit_normals (halves (tet_planes t)).
Proof.
  intros H0. apply unit_iff. apply tet_plane_cases; [apply (face_spec kmin a b c e)|apply (face_spec kmin b c e a)|apply (face_spec kmin c e a b)|apply (face_spec kmin e a b c)];
    auto using cyc1n, cyc2n, cyc3n.
Qed.
(** Signs of the distances. *)
Lemma face_le kmin' a' b' c' o' p : 0 <= kmin' -> triple a' b' c' o' <> 0 ->
  pl_dist (face_plane kmin' a' b' c' o') p <= 0 <-> 0 <= triple a' b' c' o' * triple a' b' c' p.
Proof. intros H1 H2. destruct (face_spec kmin' a' b' c' o' H1 H2) as ((g & Hg & E) & _). rewrite E. split; intros; nra. Qed.
Lemma tet_cut p : cut (halves (tet_planes t)) p <->
  0 <= triple a b c e * triple a b c p /\ 0 <= triple b c e a * triple b c e p /\
  0 <= triple c e a b * triple c e a p /\ 0 <= triple e a b c * triple e a b p.
Proof.
  rewrite cut_iff. rewrite <- (face_le kmin a b c e p), <- (face_le kmin b c e a p), <- (face_le kmin c e a b p), <- (face_le kmin e a b c p)
    by auto using cyc1n, cyc2n, cyc3n. split.
  - intros H. repeat split; apply H; cbn; auto.
  - intros (? & ? & ? & ?). apply tet_plane_cases; auto.
Qed.
(** The four half spaces cut out the hull of the vertices. *)
Lemma tet_hull p : cut (halves (tet_planes t)) p <-> hull4 a b c e p.
Proof.
  rewrite tet_cut, cyc1, cyc2, cyc3. set (T := triple a b c e) in *. split.
  - intros (H3 & H0 & H1 & H2).
    assert (HT2 : 0 < T * T) by nra.
    exists (T * - triple b c e p / (T * T)), (T * triple c e a p / (T * T)), (T * - triple e a b p / (T * T)), (T * triple a b c p / (T * T)).
    assert (Q : forall x, 0 <= T * x -> 0 <= T * x / (T * T)).
    { intros x Hx. unfold Rdiv. apply Rmult_le_pos; [auto|]. apply Rlt_le, Rinv_0_lt_compat. auto. }
    split; [apply Q; lra|]. split; [apply Q; lra|]. split; [apply Q; lra|]. split; [apply Q; lra|]. split.
    + replace (T * - triple b c e p / (T * T) + T * triple c e a p / (T * T) + T * - triple e a b p / (T * T) + T * triple a b c p / (T * T))
        with ((- triple b c e p + triple c e a p - triple e a b p + triple a b c p) / T) by (field; auto).
      replace (- triple b c e p + triple c e a p - triple e a b p + triple a b c p) with T by (unfold T, triple, vcross, vsub, vdot; cbn; ring).
      field. auto.
    + apply v3_eq.
      * assert (G : vx p = (- triple b c e p * vx a + triple c e a p * vx b - triple e a b p * vx c + triple a b c p * vx e) / T).
        { replace (- triple b c e p * vx a + triple c e a p * vx b - triple e a b p * vx c + triple a b c p * vx e) with (T * vx p)
            by (unfold T, triple, vcross, vsub, vdot; cbn; ring). field. auto. }
        etransitivity; [exact G|]. unfold vadd, vscale. cbn. field. auto.
      * assert (G : vy p = (- triple b c e p * vy a + triple c e a p * vy b - triple e a b p * vy c + triple a b c p * vy e) / T).
        { replace (- triple b c e p * vy a + triple c e a p * vy b - triple e a b p * vy c + triple a b c p * vy e) with (T * vy p)
            by (unfold T, triple, vcross, vsub, vdot; cbn; ring). field. auto. }
        etransitivity; [exact G|]. unfold vadd, vscale. cbn. field. auto.
      * assert (G : vz p = (- triple b c e p * vz a + triple c e a p * vz b - triple e a b p * vz c + triple a b c p * vz e) / T).
        { replace (- triple b c e p * vz a + triple c e a p * vz b - triple e a b p * vz c + triple a b c p * vz e) with (T * vz p)
            by (unfold T, triple, vcross, vsub, vdot; cbn; ring). field. auto. }
        etransitivity; [exact G|]. unfold vadd, vscale. cbn. field. auto.
  - intros (i & j & k & l & Hi & Hj & Hkk & Hl & Hs & ->).
    assert (E3 : triple a b c (vadd (vadd (vscale i a) (vscale j b)) (vadd (vscale k c) (vscale l e))) = l * T + (i + j + k + l - 1) * triple a b c vzero * -1) by (unfold T, triple, vcross, vsub, vadd, vscale, vdot, vzero; cbn; ring).
    assert (E0 : triple b c e (vadd (vadd (vscale i a) (vscale j b)) (vadd (vscale k c) (vscale l e))) = - i * T + (i + j + k + l - 1) * triple b c e vzero * -1) by (unfold T, triple, vcross, vsub, vadd, vscale, vdot, vzero; cbn; ring).
    assert (E1 : triple c e a (vadd (vadd (vscale i a) (vscale j b)) (vadd (vscale k c) (vscale l e))) = j * T + (i + j + k + l - 1) * triple c e a vzero * -1) by (unfold T, triple, vcross, vsub, vadd, vscale, vdot, vzero; cbn; ring).
    assert (E2 : triple e a b (vadd (vadd (vscale i a) (vscale j b)) (vadd (vscale k c) (vscale l e))) = - k * T + (i + j + k + l - 1) * triple e a b vzero * -1) by (unfold T, triple, vcross, vsub, vadd, vscale, vdot, vzero; cbn; ring).
    rewrite E0, E1, E2, E3, Hs. assert (0 <= T * T) by nra. repeat split; nra.
Qed.
End Tetra.
