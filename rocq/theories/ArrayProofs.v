From stdpp Require Import list option gmap fin_maps.
From Coq Require Import Lia.
From Verif Require Import ArrayModel ArraySpec.
Local Open Scope nat_scope.

Section Proofs.
Context {A : Type}.
Implicit Types (h : heap A).

Lemma live_mono h p n m : live h p n → m ≤ n → live h p m.
Proof. intros (b & c & -> & H & Hl) ?. exists b, c. split_and!; [done|done|lia]. Qed.

Lemma free_live h b n : live h (Some b) n → free h (Some b) = Some (delete b h).
Proof. intros (b' & c & [= <-] & H & _). simpl. by rewrite H. Qed.

Lemma alloc_fresh h : h !! fresh (dom h) = None.
Proof. apply not_elem_of_dom, is_fresh. Qed.

(** [h'] keeps what pointer [p] sees in [h]. *)
Definition keeps h h' (p : ptr) : Prop :=
  (∀ n, live h p n → live h' p n) ∧ ∀ i, load h' p i = load h p i.

Lemma keeps_refl h p : keeps h h p.
Proof. done. Qed.
Lemma keeps_trans h1 h2 h3 p : keeps h1 h2 p → keeps h2 h3 p → keeps h1 h3 p.
Proof. intros [? E1] [? E2]. split; [auto|]. intros i. by rewrite E2, E1. Qed.
Lemma keeps_delete h b p : p ≠ Some b → keeps h (delete b h) p.
Proof.
  intros H. split.
  - intros n (b' & c' & -> & Hl & ?). exists b', c'. split_and!; [done| |done].
    by rewrite lookup_delete_ne by congruence.
  - intros i. unfold load. destruct p as [q|]; simpl; [|done]. by rewrite lookup_delete_ne by congruence.
Qed.
Lemma keeps_insert h b c p : p ≠ Some b → keeps h (<[b:=c]> h) p.
Proof.
  intros H. split.
  - intros n (b' & c' & -> & Hl & ?). exists b', c'. split_and!; [done| |done].
    by rewrite lookup_insert_ne by congruence.
  - intros i. unfold load. destruct p as [q|]; simpl; [|done]. by rewrite lookup_insert_ne by congruence.
Qed.
Lemma keeps_sane h h' own p n : keeps h h' p → sane h own p n → sane h' own p n.
Proof. intros [K _] [?|?]; [by left|right; auto]. Qed.

Lemma live_insert h b c n : n ≤ length c → live (<[b:=c]> h) (Some b) n.
Proof. intros. exists b, c. split_and!; [done|by rewrite lookup_insert|done]. Qed.

Lemma live_ne_fresh h p n : live h p n → p ≠ Some (fresh (dom h)).
Proof. intros (b & c & -> & Hl & _) [= ->]. by rewrite alloc_fresh in Hl. Qed.
Lemma sane_ne_fresh h own p n : sane h own p n → p ≠ Some (fresh (dom h)).
Proof. intros [(-> & _)|H]; [done|by eapply live_ne_fresh]. Qed.

(** A copy into a block no smaller than n. *)
Lemma copy_spec h s b c n : live h s n → h !! b = Some c → n ≤ length c → s ≠ Some b →
  ∃ c', copy h s (Some b) n = Some (<[b:=c']> h) ∧ length c' = length c ∧
    ∀ i, i < n → load (<[b:=c']> h) (Some b) i = load h s i.
Proof.
  intros (bs & cs & -> & Hs & Hls) Hb Hlb Hne. unfold copy.
  destruct (Nat.eqb_spec n 0).
  { exists c. rewrite insert_id by done. split_and!; [done|done|lia]. }
  simpl. rewrite Hs, Hb. simpl.
  destruct (Nat.leb_spec n (length cs)); [|lia]. destruct (Nat.leb_spec n (length c)); [|lia]. simpl.
  eexists. split_and!; [done|rewrite app_length, take_length, drop_length; lia|].
  intros i Hi. unfold load. simpl. rewrite lookup_insert. simpl.
  rewrite lookup_app_l by (rewrite take_length; lia). by rewrite lookup_take by lia.
Qed.

Local Arguments load : simpl never.
Local Arguments free : simpl never.
Local Arguments copy : simpl never.
Ltac norm d s Hr :=
  repeat (first [ rewrite !insert_insert | rewrite lookup_insert
                | rewrite (lookup_insert_ne _ d s) by done | rewrite Hr ]; simpl).

(** * Array *)
Lemma arr_dealloc_spec (st : astate A) d a : arr_ok st → a_objs st !! d = Some a →
  ∃ h, arr_dealloc st d = Some (AState h (<[d := Arr None 0 false]> (a_objs st))) ∧
    (∀ o a', o ≠ d → a_objs st !! o = Some a' → keeps (a_heap st) h (a_ptr a')).
Proof.
  intros Hok Ha. unfold arr_dealloc. rewrite Ha. simpl.
  destruct (a_own a) eqn:E.
  - destruct (Hok d a Ha) as [Hs Hown]. specialize (Hown E). rewrite E in Hs.
    destruct Hs as [(? & ? & ?)|Hl]; [done|].
    pose proof Hl as (b & c & Hb & _). rewrite Hb in *. rewrite (free_live _ _ _ Hl). simpl.
    eexists. split; [done|]. intros o a' Hne Ha'. apply keeps_delete. eapply Hown; eauto.
  - simpl. eexists. split; [done|]. intros. apply keeps_refl.
Qed.

Lemma arr_assign_spec (st : astate A) d s : arr_ok st → d ≠ s → is_Some (a_objs st !! d) → is_Some (a_objs st !! s) →
  ∃ st', arr_assign st d s = Some st' ∧ arr_ok st' ∧ arr_same st s st' d ∧
    (∀ o, o ≠ d → is_Some (a_objs st !! o) → arr_same st o st' o) ∧
    (∀ o a a', o ≠ d → a_objs st' !! o = Some a → a_objs st' !! d = Some a' → 0 < a_size a' →
       a_ptr a ≠ a_ptr a').
Proof.
  intros Hok Hne [a Ha] [r Hr]. unfold arr_assign.
  destruct (arr_dealloc_spec st d a Hok Ha) as (h & -> & Hk). simpl.
  rewrite (lookup_insert_ne _ d s) by done. rewrite ?Hr. simpl.
  unfold arr_alloc, arr_dealloc. simpl. rewrite lookup_insert. simpl. rewrite insert_insert.
  assert (∀ o a', o ≠ d → a_objs st !! o = Some a' → sane h (a_own a') (a_ptr a') (a_size a')) as Hsane.
  { intros o a' Hod Ho. eapply keeps_sane; [eapply Hk; eauto|]. by apply (Hok o a'). }
  destruct (Nat.eqb_spec (a_size r) 0) as [Hz|Hz]; simpl.
  - norm d s Hr.
    unfold copy. rewrite Hz. simpl. eexists. split; [done|]. split_and!.
    + intros o a' Ho. simpl in *. apply lookup_insert_Some in Ho as [[<- <-]|[Hod Ho]]; [by split; [left|]|].
      destruct (Hok o a' Ho) as [_ H2]. split; [eapply Hsane; eauto|].
      intros Hown o' a'' Ho' Hx. apply lookup_insert_Some in Hx as [[<- <-]|[? Hx]]; [|eapply H2; eauto].
      simpl. destruct (Hsane o a') as [(_ & ? & _)|(b & c & -> & _)]; [done|done|congruence|done].
    + exists r, (Arr None 0 false). simpl. rewrite lookup_insert. split_and!; [done|done|done|lia].
    + intros o Hod [ao Ho]. exists ao, ao. simpl. rewrite lookup_insert_ne by done.
      split_and!; [done|done|done|]. intros i Hi. unfold arr_get. simpl.
      rewrite lookup_insert_ne, Ho by done. simpl. symmetry. eapply Hk; eauto.
    + intros o a1 a2 Hod H1 H2. simpl in *. rewrite lookup_insert in H2. injection H2 as <-. simpl. lia.
  - norm d s Hr.
    set (p := fresh (dom h)) in *.
    destruct (Hsane s r) as [(_ & _ & ?)|Hl]; [done|done|lia|].
    destruct (copy_spec (<[p:=replicate (a_size r) None]> h) (a_ptr r) p (replicate (a_size r) None) (a_size r))
      as (c' & -> & Hlc & Hlo).
    { apply keeps_insert; [by eapply live_ne_fresh|done]. }
    { by rewrite lookup_insert. }
    { by rewrite replicate_length. }
    { by eapply live_ne_fresh. }
    simpl. rewrite replicate_length in Hlc. rewrite insert_insert in *.
    assert (∀ o a', o ≠ d → a_objs st !! o = Some a' → a_ptr a' ≠ Some p) as Hnp.
    { intros o a' Hod Ho. eapply sane_ne_fresh. eapply Hsane; eauto. }
    eexists. split; [done|]. split_and!.
    + intros o a' Ho. simpl in *. apply lookup_insert_Some in Ho as [[<- <-]|[Hod Ho]].
      * simpl. split; [right; apply live_insert; lia|]. intros _ o' a'' Hod Hx.
        rewrite lookup_insert_ne in Hx by done. eapply Hnp; eauto.
      * split; [eapply keeps_sane; [apply keeps_insert; eapply Hnp; eauto|eapply Hsane; eauto]|].
        intros Hown o' a'' Ho' Hx. apply lookup_insert_Some in Hx as [[<- <-]|[? Hx]].
        -- simpl. apply not_eq_sym. eapply Hnp; eauto.
        -- by eapply (Hok o a').
    + eexists _, _. simpl. rewrite lookup_insert. split_and!; [done|done|done|].
      intros i Hi. unfold arr_get. simpl. rewrite lookup_insert, Hr. simpl.
      rewrite Hlo by done. assert (a_ptr r ≠ Some p) as Hrp by (eapply Hnp; eauto).
      rewrite (proj2 (keeps_insert _ _ _ _ Hrp)). symmetry. eapply Hk; eauto.
    + intros o Hod [ao Ho]. exists ao, ao. simpl. rewrite lookup_insert_ne by done.
      split_and!; [done|done|done|]. intros i Hi. unfold arr_get. simpl.
      rewrite lookup_insert_ne, Ho by done. simpl.
      assert (a_ptr ao ≠ Some p) as Hrp by (eapply Hnp; eauto).
      rewrite (proj2 (keeps_insert _ _ _ _ Hrp)). symmetry. eapply Hk; eauto.
    + intros o a1 a2 Hod H1 H2. simpl in *. rewrite lookup_insert in H2. injection H2 as <-. simpl.
      rewrite lookup_insert_ne in H1 by done. intros _. eapply Hnp; eauto.
Qed.

Lemma arr_self_assign (st : astate A) d a : arr_ok st → a_objs st !! d = Some a →
  ∃ st', arr_assign st d d = Some st' ∧ a_objs st' !! d = Some (Arr None 0 false).
Proof.
  intros Hok Ha. unfold arr_assign.
  destruct (arr_dealloc_spec st d a Hok Ha) as (h & -> & Hk). simpl. rewrite lookup_insert. simpl.
  unfold arr_alloc, arr_dealloc. simpl. rewrite lookup_insert. simpl. rewrite lookup_insert. simpl.
  eexists. split; [done|]. simpl. by rewrite lookup_insert.
Qed.

(** * AOS3D *)
Lemma aos_clear_spec (st : ostate A) d a : aos_ok st → o_objs st !! d = Some a →
  ∃ h, aos_clear st d = Some (OState h (<[d := Aos false 0 0 None]> (o_objs st))) ∧
    (∀ o a', o ≠ d → o_objs st !! o = Some a' → keeps (o_heap st) h (o_ptr a')).
Proof.
  intros Hok Ha. unfold aos_clear, aos_dealloc. rewrite Ha. simpl.
  destruct (o_own a) eqn:E.
  - destruct (Hok d a Ha) as (_ & Hs & Hown). specialize (Hown E) as [_ Hown]. rewrite E in Hs.
    destruct Hs as [(? & ? & ?)|Hl]; [done|].
    pose proof Hl as (b & c & Hb & _). rewrite Hb in *. rewrite (free_live _ _ _ Hl). simpl.
    eexists. split; [done|]. intros o a' Hne Ha'. apply keeps_delete. eapply Hown; eauto.
  - simpl. eexists. split; [done|]. intros. apply keeps_refl.
Qed.

Lemma aos_assign_spec (st : ostate A) d s r : aos_ok st → d ≠ s → is_Some (o_objs st !! d) →
  o_objs st !! s = Some r → o_own r = true →
  ∃ st', aos_assign st d s = Some st' ∧ aos_ok st' ∧ aos_same st s st' d ∧
    (∀ o, o ≠ d → is_Some (o_objs st !! o) → aos_same st o st' o) ∧
    (∀ o a a', o ≠ d → o_objs st' !! o = Some a → o_objs st' !! d = Some a' → o_ptr a ≠ o_ptr a').
Proof.
  intros Hok Hne [a Ha] Hr Hown. unfold aos_assign.
  destruct (aos_clear_spec st d a Hok Ha) as (h & -> & Hk). simpl.
  rewrite (lookup_insert_ne _ d s) by done. rewrite ?Hr. simpl. rewrite Hown.
  assert (∀ o a', o ≠ d → o_objs st !! o = Some a' → sane h (o_own a') (o_ptr a') (o_cap a')) as Hsane.
  { intros o a' Hod Ho. eapply keeps_sane; [eapply Hk; eauto|]. by apply (Hok o a'). }
  destruct (Hok s r Hr) as (Hrsz & _ & Hro). specialize (Hro Hown) as [Hcap Hro].
  destruct (Hsane s r) as [(_ & ? & _)|Hl]; [done|done|congruence|].
  unfold aos_reserve. simpl. rewrite lookup_insert. simpl.
  destruct (Nat.ltb_spec 0 (o_cap r)); [|lia]. simpl.
  set (p := fresh (dom h)) in *. unfold aos_dealloc. simpl. norm d s Hr.
  destruct (copy_spec (<[p:=replicate (o_cap r) None]> h) (o_ptr r) p (replicate (o_cap r) None) (o_size r))
    as (c' & -> & Hlc & Hlo).
  { apply keeps_insert; [by eapply live_ne_fresh|]. by eapply live_mono. }
  { by rewrite lookup_insert. }
  { by rewrite replicate_length. }
  { by eapply live_ne_fresh. }
  simpl. rewrite replicate_length in Hlc. rewrite insert_insert in *.
  norm d s Hr.
  assert (∀ o a', o ≠ d → o_objs st !! o = Some a' → o_ptr a' ≠ Some p) as Hnp.
  { intros o a' Hod Ho. eapply sane_ne_fresh. eapply Hsane; eauto. }
  eexists. split; [done|]. split_and!.
  - intros o a' Ho. simpl in *. apply lookup_insert_Some in Ho as [[<- <-]|[Hod Ho]].
    + simpl. split; [done|]. split; [right; apply live_insert; lia|]. intros _. split; [done|].
      intros o' a'' Hod Hx. rewrite lookup_insert_ne in Hx by done. eapply Hnp; eauto.
    + destruct (Hok o a' Ho) as (H1 & _ & H3). split; [done|].
      split; [eapply keeps_sane; [apply keeps_insert; eapply Hnp; eauto|eapply Hsane; eauto]|].
      intros Hown'. destruct (H3 Hown') as [H4 H5]. split; [done|].
      intros o' a'' Ho' Hx. apply lookup_insert_Some in Hx as [[<- <-]|[? Hx]].
      * simpl. apply not_eq_sym. eapply Hnp; eauto.
      * eapply H5; eauto.
  - eexists _, _. simpl. rewrite lookup_insert. split_and!; [done|done|done|].
    intros i Hi. unfold aos_get. simpl. rewrite lookup_insert, Hr. simpl.
    rewrite Hlo by done. assert (o_ptr r ≠ Some p) as Hrp by (eapply Hnp; eauto).
    rewrite (proj2 (keeps_insert _ _ _ _ Hrp)). symmetry. eapply Hk; eauto.
  - intros o Hod [ao Ho]. exists ao, ao. simpl. rewrite lookup_insert_ne by done.
    split_and!; [done|done|done|]. intros i Hi. unfold aos_get. simpl.
    rewrite lookup_insert_ne, Ho by done. simpl.
    assert (o_ptr ao ≠ Some p) as Hrp by (eapply Hnp; eauto).
    rewrite (proj2 (keeps_insert _ _ _ _ Hrp)). symmetry. eapply Hk; eauto.
  - intros o a1 a2 Hod H1 H2. simpl in *. rewrite lookup_insert in H2. injection H2 as <-. simpl.
    rewrite lookup_insert_ne in H1 by done. eapply Hnp; eauto.
Qed.

Lemma aos_self_assign (st : ostate A) d a : aos_ok st → o_objs st !! d = Some a →
  ∃ st', aos_assign st d d = Some st' ∧ o_objs st' !! d = Some (Aos false 0 0 None).
Proof.
  intros Hok Ha. unfold aos_assign.
  destruct (aos_clear_spec st d a Hok Ha) as (h & -> & Hk). simpl. rewrite lookup_insert. simpl.
  rewrite lookup_insert. simpl. eexists. split; [done|]. simpl. by rewrite lookup_insert.
Qed.

(** * SOA3D *)
Lemma elem3 (p a b c : ptr) : p ∈ [a; b; c] ↔ p = a ∨ p = b ∨ p = c.
Proof. rewrite !elem_of_cons, elem_of_nil. tauto. Qed.

Lemma soa_dealloc_spec (st : sstate A) d a sz cap : soa_ok st → s_objs st !! d = Some a →
  ∃ h, soa_dealloc (s_heap st) (Soa (s_own a) sz cap (s_x a) (s_y a) (s_z a)) = Some h ∧
    (∀ o a', o ≠ d → s_objs st !! o = Some a' → ∀ p, p ∈ pts a' → keeps (s_heap st) h p) ∧
    (s_own a = true → ∀ p, p ∈ pts a → ∃ b, p = Some b ∧ h !! b = None).
Proof.
  intros Hok Ha. unfold soa_dealloc. simpl.
  destruct (s_own a) eqn:E; [|eexists; split_and!; [done|intros; apply keeps_refl|done]].
  destruct (Hok d a Ha) as (_ & Hs & Hown). specialize (Hown E) as [Hnd Hown]. rewrite E in Hs.
  assert (∀ p, p ∈ pts a → live (s_heap st) p 0) as Hl.
  { intros p Hp. destruct (Hs p Hp) as [(? & ? & ?)|?]; [done|]. eapply live_mono; [done|lia]. }
  unfold pts in *.
  assert (live (s_heap st) (s_x a) 0) as Hx by (apply Hl, elem3; tauto).
  assert (live (s_heap st) (s_y a) 0) as Hy by (apply Hl, elem3; tauto).
  assert (live (s_heap st) (s_z a) 0) as Hz by (apply Hl, elem3; tauto).
  assert (s_x a ≠ s_y a ∧ s_x a ≠ s_z a ∧ s_y a ≠ s_z a) as (Hxy & Hxz & Hyz).
  { apply NoDup_cons in Hnd as [H1 H2]. apply NoDup_cons in H2 as [H2 _].
    rewrite !not_elem_of_cons in H1. rewrite !not_elem_of_cons in H2. destruct_and!. auto. }
  pose proof Hx as (bx & ? & Ex & _). pose proof Hy as (by_ & ? & Ey & _). pose proof Hz as (bz & ? & Ez & _).
  rewrite Ex in Hx, Hxy, Hxz, Hown |- *. rewrite Ey in Hy, Hxy, Hyz, Hown |- *. rewrite Ez in Hz, Hxz, Hyz, Hown |- *.
  rewrite (free_live _ _ _ Hx). simpl mbind.
  assert (live (delete bx (s_heap st)) (Some by_) 0) as Hy' by (apply keeps_delete; [congruence|done]).
  rewrite (free_live _ _ _ Hy'). simpl mbind.
  assert (live (delete by_ (delete bx (s_heap st))) (Some bz) 0) as Hz'.
  { apply keeps_delete; [congruence|]. apply keeps_delete; [congruence|done]. }
  rewrite (free_live _ _ _ Hz'). eexists. split_and!; [done|..].
  - intros o a' Hod Ho p Hp.
    assert (p ≠ Some bx ∧ p ≠ Some by_ ∧ p ≠ Some bz) as (? & ? & ?).
    { split_and!; intros ->; (eapply Hown; [apply Hod|apply Ho|apply elem3|apply Hp]; tauto). }
    eapply keeps_trans; [by apply (keeps_delete _ bx)|].
    eapply keeps_trans; [by apply (keeps_delete _ by_)|]. by apply keeps_delete.
  - intros _ p Hp. assert (p = Some bx ∨ p = Some by_ ∨ p = Some bz) as [-> | [-> | ->]] by (by apply elem3).
    + exists bx. split; [done|]. rewrite !lookup_delete_ne by congruence. by rewrite lookup_delete.
    + exists by_. split; [done|]. rewrite !lookup_delete_ne by congruence. by rewrite lookup_delete.
    + exists bz. split; [done|]. by rewrite lookup_delete.
Qed.

Lemma load_eq_dep h h' p i : keeps h h' p → load h' p i = load h p i.
Proof. intros [_ H]. done. Qed.

Lemma soa_assign_spec (st : sstate A) d s r : soa_ok st → d ≠ s → is_Some (s_objs st !! d) →
  s_objs st !! s = Some r → s_own r = true → 0 < s_size r →
  ∃ st', soa_assign st d s = Some st' ∧ soa_ok st' ∧ soa_same st s st' d ∧
    (∀ o, o ≠ d → is_Some (s_objs st !! o) → soa_same st o st' o) ∧
    (∀ o a a', o ≠ d → s_objs st' !! o = Some a → s_objs st' !! d = Some a' →
       ∀ p, p ∈ pts a → p ∉ pts a').
Proof.
  intros Hok Hne [a Ha] Hr Hown Hsz. unfold soa_assign. rewrite Ha, Hr. simpl.
  rewrite lookup_insert. simpl.
  destruct (soa_dealloc_spec st d a (s_size r) (s_cap r) Hok Ha) as (h & -> & Hk & _). simpl.
  norm d s Hr.
  rewrite Hown. destruct (Nat.ltb_spec 0 (s_size r)); [|lia]. simpl.
  destruct (Hok s r Hr) as (Hrsz & _ & Hro). specialize (Hro Hown) as [Hnd Hro].
  unfold soa_alloc. simpl. destruct (Nat.eqb_spec (s_cap r) 0) as [|Hc0]; [lia|]. simpl.
  norm d s Hr.
  set (blk := replicate (s_cap r) (@None A)). assert (length blk = s_cap r) as Hblk by apply replicate_length.
  set (x := fresh (dom h)). set (h1 := <[x:=blk]> h).
  set (y := fresh (dom h1)). set (h2 := <[y:=blk]> h1).
  set (z := fresh (dom h2)). set (h3 := <[z:=blk]> h2).
  assert (y ≠ x) as Hyx.
  { intros E. pose proof (alloc_fresh h1) as F. fold y in F. rewrite E in F. unfold h1 in F.
    by rewrite lookup_insert in F. }
  assert (z ≠ x ∧ z ≠ y) as [Hzx Hzy].
  { pose proof (alloc_fresh h2) as F. fold z in F. split; intros E; rewrite E in F; unfold h2, h1 in F.
    - rewrite lookup_insert_ne in F by done. by rewrite lookup_insert in F.
    - by rewrite lookup_insert in F. }
  assert (∀ o a', o ≠ d → s_objs st !! o = Some a' → ∀ p, p ∈ pts a' → sane h (s_own a') p (s_cap a')) as Hsane.
  { intros o a' Hod Ho p Hp. eapply keeps_sane; [eapply Hk; eauto|]. by apply (Hok o a'). }
  assert (∀ own p n, sane h own p n → p ≠ Some x ∧ p ≠ Some y ∧ p ≠ Some z) as Hfr.
  { intros own p n Hs. assert (p ≠ Some x) by (by eapply sane_ne_fresh).
    assert (sane h1 own p n) as Hs1 by (eapply keeps_sane; [by apply keeps_insert|done]).
    assert (p ≠ Some y) by (by eapply sane_ne_fresh).
    assert (sane h2 own p n) as Hs2 by (eapply keeps_sane; [by apply keeps_insert|done]).
    split_and!; [done|done|by eapply sane_ne_fresh]. }
  clearbody z y x blk.
  assert (∀ p, p ≠ Some x → p ≠ Some y → p ≠ Some z → keeps h h3 p) as K3.
  { intros. apply (keeps_trans _ h1); [by apply keeps_insert|].
    apply (keeps_trans _ h2); [by apply keeps_insert|]. by apply keeps_insert. }
  assert (∀ p, p ∈ pts r → live h p (s_cap r)) as Hlr.
  { intros p Hp. destruct (Hsane s r) with p as [(_ & ? & _)|?]; [done|done|done|congruence|done]. }
  assert (s_x r ∈ pts r ∧ s_y r ∈ pts r ∧ s_z r ∈ pts r) as (Px & Py & Pz) by (unfold pts; rewrite !elem3; tauto).
  assert (∀ p, p ∈ pts r → p ≠ Some x ∧ p ≠ Some y ∧ p ≠ Some z) as Hrfr.
  { intros p Hp. eapply Hfr. by eapply (Hsane s r). }
  destruct (Hrfr _ Px) as (Rxx & Rxy & Rxz). destruct (Hrfr _ Py) as (Ryx & Ryy & Ryz).
  destruct (Hrfr _ Pz) as (Rzx & Rzy & Rzz).
  destruct (copy_spec h3 (s_x r) x blk (s_size r)) as (cx & -> & Lx & Ox).
  { eapply live_mono; [apply K3; eauto|lia]. }
  { unfold h3, h2, h1. rewrite !lookup_insert_ne by done. by rewrite lookup_insert. }
  { lia. } { done. }
  simpl. set (h4 := <[x:=cx]> h3) in *.
  destruct (copy_spec h4 (s_y r) y blk (s_size r)) as (cy & -> & Ly & Oy).
  { apply keeps_insert; [done|]. eapply live_mono; [apply K3; eauto|lia]. }
  { unfold h4, h3, h2, h1. rewrite lookup_insert_ne by done. rewrite lookup_insert_ne by done.
    by rewrite lookup_insert. }
  { lia. } { done. }
  simpl. set (h5 := <[y:=cy]> h4) in *.
  destruct (copy_spec h5 (s_z r) z blk (s_size r)) as (cz & -> & Lz & Oz).
  { apply keeps_insert; [done|]. apply keeps_insert; [done|]. eapply live_mono; [apply K3; eauto|lia]. }
  { unfold h5, h4, h3, h2, h1. rewrite !lookup_insert_ne by done. by rewrite lookup_insert. }
  { lia. } { done. }
  simpl. set (h6 := <[z:=cz]> h5) in *.
  assert (∀ p, p ≠ Some x → p ≠ Some y → p ≠ Some z → keeps h h6 p) as K6.
  { intros. apply (keeps_trans _ h3); [by apply K3|]. apply (keeps_trans _ h4); [by apply keeps_insert|].
    apply (keeps_trans _ h5); [by apply keeps_insert|]. by apply keeps_insert. }
  assert (∀ o a', o ≠ d → s_objs st !! o = Some a' → ∀ p, p ∈ pts a' →
            p ≠ Some x ∧ p ≠ Some y ∧ p ≠ Some z) as Hnp.
  { intros o a' Hod Ho p Hp. eapply Hfr. by eapply (Hsane o a'). }
  assert (∀ o a', o ≠ d → s_objs st !! o = Some a' → ∀ p, p ∈ pts a' → keeps (s_heap st) h6 p) as Kall.
  { intros o a' Hod Ho p Hp. eapply keeps_trans; [eapply Hk; eauto|].
    destruct (Hnp o a' Hod Ho p Hp) as (? & ? & ?). by apply K6. }
  assert (live h6 (Some x) (s_cap r)) as Lvx.
  { apply keeps_insert; [congruence|]. apply keeps_insert; [congruence|]. apply live_insert. lia. }
  assert (live h6 (Some y) (s_cap r)) as Lvy.
  { apply keeps_insert; [congruence|]. apply live_insert. lia. }
  assert (live h6 (Some z) (s_cap r)) as Lvz by (apply live_insert; lia).
  eexists. split; [done|]. split_and!.
  - intros o a' Ho. simpl in *. apply lookup_insert_Some in Ho as [[<- <-]|[Hod Ho]].
    + simpl. split; [done|]. split.
      * intros p Hp. right. unfold pts in Hp. simpl in Hp.
        assert (p = Some x ∨ p = Some y ∨ p = Some z) as [-> | [-> | ->]] by (by apply elem3); done.
      * intros _. split.
        -- unfold pts. simpl. repeat (apply NoDup_cons; split); [rewrite !not_elem_of_cons, elem_of_nil; intuition congruence..|apply not_elem_of_nil|constructor].
        -- intros o' a'' Hod Hx p Hp Hp2. rewrite lookup_insert_ne in Hx by done.
           destruct (Hnp o' a'' Hod Hx p Hp2) as (? & ? & ?). unfold pts in Hp. simpl in Hp. apply elem3 in Hp. intuition congruence.
    + destruct (Hok o a' Ho) as (H1 & _ & H3). split; [done|]. split.
      * intros p Hp. eapply keeps_sane; [eapply Kall; eauto|]. by apply (Hok o a').
      * intros Hown'. destruct (H3 Hown') as [H4 H5]. split; [done|].
        intros o' a'' Ho' Hx p Hp. apply lookup_insert_Some in Hx as [[<- <-]|[? Hx]].
        -- destruct (Hnp o a' (not_eq_sym Hod) Ho p Hp) as (? & ? & ?). unfold pts. simpl. rewrite elem3. intuition congruence.
        -- eapply H5; eauto.
  - eexists _, _. simpl. rewrite lookup_insert. split_and!; [done|done|done|].
    intros i Hi. unfold soa_get. simpl. rewrite lookup_insert, Hr. simpl.
    assert (load h6 (Some x) i = load (s_heap st) (s_x r) i) as ->.
    { unfold h6. rewrite (load_eq_dep h5 _ (Some x)) by (apply keeps_insert; congruence).
      unfold h5. rewrite (load_eq_dep h4 _ (Some x)) by (apply keeps_insert; congruence).
      unfold h4. rewrite Ox by done. rewrite (load_eq_dep h _ (s_x r)) by (by apply K3).
      apply load_eq_dep. by eapply (Hk s r). }
    assert (load h6 (Some y) i = load (s_heap st) (s_y r) i) as ->.
    { unfold h6. rewrite (load_eq_dep h5 _ (Some y)) by (apply keeps_insert; congruence).
      unfold h5. rewrite Oy by done. unfold h4.
      rewrite (load_eq_dep h3 _ (s_y r)) by (by apply keeps_insert).
      rewrite (load_eq_dep h _ (s_y r)) by (by apply K3). apply load_eq_dep. by eapply (Hk s r). }
    assert (load h6 (Some z) i = load (s_heap st) (s_z r) i) as ->; [|done].
    { unfold h6. rewrite Oz by done. unfold h5.
      rewrite (load_eq_dep h4 _ (s_z r)) by (by apply keeps_insert). unfold h4.
      rewrite (load_eq_dep h3 _ (s_z r)) by (by apply keeps_insert).
      rewrite (load_eq_dep h _ (s_z r)) by (by apply K3). apply load_eq_dep. by eapply (Hk s r). }
  - intros o Hod [ao Ho]. exists ao, ao. simpl. rewrite lookup_insert_ne by done.
    split_and!; [done|done|done|]. intros i Hi. unfold soa_get. simpl.
    rewrite lookup_insert_ne, Ho by done. simpl.
    rewrite !(load_eq_dep (s_heap st) h6); [done|..]; (eapply Kall; [apply Hod|apply Ho|]; unfold pts; rewrite elem3; tauto).
  - intros o a1 a2 Hod H1 H2 p Hp Hp2. simpl in *. rewrite lookup_insert in H2. injection H2 as <-.
    rewrite lookup_insert_ne in H1 by done. destruct (Hnp o a1 Hod H1 p Hp) as (? & ? & ?).
    unfold pts in Hp2. simpl in Hp2. apply elem3 in Hp2. intuition congruence.
Qed.

Lemma soa_self_assign (st : sstate A) d a : soa_ok st → s_objs st !! d = Some a → s_own a = true →
  ∃ st', soa_assign st d d = Some st' ∧ ∀ i, soa_get st' d i = None.
Proof.
  intros Hok Ha Hown. unfold soa_assign. rewrite Ha. simpl. rewrite lookup_insert. simpl.
  destruct (soa_dealloc_spec st d a (s_size a) (s_cap a) Hok Ha) as (h & -> & _ & Hd). simpl.
  rewrite lookup_insert. simpl. eexists. split; [done|]. intros i. unfold soa_get. simpl.
  rewrite lookup_insert. simpl. destruct (Hd Hown (s_x a)) as (b & -> & Hb); [unfold pts; rewrite elem3; tauto|].
  unfold load. simpl. by rewrite Hb.
Qed.
End Proofs.

(** * No leaks *)
Section Leak.
Context {A : Type}.
Implicit Types (h : heap A).
Lemma free_live_iff h p h' b : free h p = Some h' → is_Some (h' !! b) → is_Some (h !! b) ∧ p ≠ Some b.
Proof.
  unfold free. destruct p as [q|]; simpl.
  - destruct (h !! q) eqn:E; simpl; [|done]. intros [= <-] [x Hx].
    apply lookup_delete_Some in Hx as [Hne Hx]. split; [by eexists|congruence].
  - by intros [= <-].
Qed.
Lemma copy_live_iff h s d n h' b : copy h s d n = Some h' → is_Some (h' !! b) → is_Some (h !! b).
Proof.
  unfold copy. destruct (n =? 0); [by intros [= <-]|].
  destruct s as [q|]; simpl; [|done]. destruct d as [q'|]; simpl; [|done].
  destruct (h !! q) eqn:E; simpl; [|done]. destruct (h !! q') eqn:E'; simpl; [|done].
  destruct (_ && _); [|done]. intros [= <-] [x Hx].
  apply lookup_insert_Some in Hx as [[<- _]|[_ Hx]]; by eexists.
Qed.
Lemma alloc_live_iff h n h' p b : alloc h n = (h', p) → is_Some (h' !! b) → b = p ∨ is_Some (h !! b).
Proof.
  unfold alloc. intros [= <- <-] [x Hx]. apply lookup_insert_Some in Hx as [[<- _]|[_ Hx]]; [by left|right; by eexists].
Qed.
Local Arguments free : simpl never.
Local Arguments copy : simpl never.
Local Opaque alloc.

(** an update of object [d] that releases what [d] owned *)
Lemma arr_dealloc_noleak ext (st st1 : astate A) d : arr_noleak ext st → arr_dealloc st d = Some st1 →
  arr_noleak ext st1 ∧ a_objs st1 !! d = Some (Arr None 0 false) ∧ is_Some (a_objs st !! d) ∧
  a_objs st1 = <[d:=Arr None 0 false]> (a_objs st).
Proof.
  intros Hn. unfold arr_dealloc. destruct (a_objs st !! d) as [a|] eqn:Ha; simpl; [|done].
  destruct (if a_own a then _ else _) as [h|] eqn:Hh; simpl; [|done]. intros [= <-]. simpl.
  split_and!; [|by rewrite lookup_insert|done|done].
  intros b Hb. simpl in *.
  assert (is_Some (a_heap st !! b) ∧ (a_own a = true → a_ptr a ≠ Some b)) as [Hb' Hne].
  { destruct (a_own a); [|injection Hh as <-; by split].
    destruct (free_live_iff _ _ _ _ Hh Hb). by split. }
  destruct (Hn b Hb') as [?|(o & a' & Ho & Ho1 & Ho2)]; [by left|]. right. exists o, a'.
  split; [|done]. rewrite lookup_insert_ne; [done|]. intros <-. rewrite Ha in Ho. injection Ho as <-. by apply Hne.
Qed.
Lemma arr_assign_noleak ext (st st' : astate A) d s : arr_noleak ext st → arr_assign st d s = Some st' →
  arr_noleak ext st'.
Proof.
  intros Hn. unfold arr_assign. destruct (arr_dealloc st d) as [st1|] eqn:E1; simpl; [|done].
  destruct (arr_dealloc_noleak ext _ _ _ Hn E1) as (Hn1 & Hd1 & _ & _).
  destruct (a_objs st1 !! s) as [a1|] eqn:Hs; simpl; [|done].
  destruct (arr_alloc st1 d (a_size a1)) as [st2|] eqn:E2; simpl; [|done].
  assert (arr_noleak ext st2) as Hn2.
  { unfold arr_alloc in E2. destruct (arr_dealloc st1 d) as [st3|] eqn:E3; simpl in E2; [|done].
    destruct (arr_dealloc_noleak ext _ _ _ Hn1 E3) as (Hn3 & Hd3 & _ & _).
    destruct (a_size a1 =? 0).
    - injection E2 as <-. intros b Hb. simpl in *. destruct (Hn3 b Hb) as [?|(o & a' & Ho & Ho1 & Ho2)]; [by left|].
      right. exists o, a'. split; [|done]. rewrite lookup_insert_ne; [done|]. intros <-. rewrite Hd3 in Ho.
      by injection Ho as <-.
    - destruct (alloc (a_heap st3) (a_size a1)) as [h p] eqn:Ea. inversion E2; subst st2; clear E2. intros b Hb. simpl in *.
      destruct (alloc_live_iff _ _ _ _ _ Ea Hb) as [->|Hb'].
      { right. eexists d, _. rewrite lookup_insert. done. }
      destruct (Hn3 b Hb') as [?|(o & a' & Ho & Ho1 & Ho2)]; [by left|].
      right. exists o, a'. split; [|done]. rewrite lookup_insert_ne; [done|]. intros <-. rewrite Hd3 in Ho.
      by injection Ho as <-. }
  destruct (a_objs st2 !! s) as [a2|]; simpl; [|done]. destruct (a_objs st2 !! d) as [b2|]; simpl; [|done].
  destruct (copy _ _ _ _) as [h|] eqn:Ec; simpl; [|done]. intros [= <-] b Hb. simpl in *.
  apply Hn2. by eapply copy_live_iff.
Qed.

Lemma aos_assign_noleak ext (st st' : ostate A) d s : aos_noleak ext st → aos_ok st → aos_assign st d s = Some st' →
  aos_noleak ext st'.
Proof.
  intros Hn Hok. unfold aos_assign. destruct (aos_clear st d) as [st1|] eqn:E1; simpl; [|done].
  assert (aos_noleak ext st1 ∧ o_objs st1 !! d = Some (Aos false 0 0 None)) as [Hn1 Hd1].
  { unfold aos_clear, aos_dealloc in E1. destruct (o_objs st !! d) as [a|] eqn:Ha; simpl in E1; [|done].
    destruct (if o_own a then _ else _) as [h|] eqn:Hh; simpl in E1; [|done]. injection E1 as <-. simpl.
    split; [|by rewrite lookup_insert]. intros b Hb. simpl in *.
    assert (is_Some (o_heap st !! b) ∧ (o_own a = true → o_ptr a ≠ Some b)) as [Hb' Hne].
    { destruct (o_own a); [|injection Hh as <-; by split].
      destruct (free_live_iff _ _ _ _ Hh Hb). by split. }
    destruct (Hn b Hb') as [?|(o & a' & Ho & Ho1 & Ho2)]; [by left|]. right. exists o, a'.
    split; [|done]. rewrite lookup_insert_ne; [done|]. intros <-. rewrite Ha in Ho. injection Ho as <-. by apply Hne. }
  destruct (o_objs st1 !! s) as [r1|] eqn:Hs; simpl; [|done].
  assert (∀ h a1, o_objs st1 !! d = Some a1 →
    (∀ b, is_Some (h !! b) → is_Some (o_heap st1 !! b) ∨ (o_own a1 = false ∧ False)) → True) as _ by done.
  destruct (o_own r1) eqn:Eo.
  - unfold aos_reserve. rewrite Hd1. simpl.
    destruct (o_cap r1) as [|c] eqn:Ec.
    + (* an owning source has capacity > 0 *)
      exfalso. destruct (decide (s = d)) as [->|Hne].
      { rewrite Hd1 in Hs. injection Hs as <-. done. }
      assert (o_objs st !! s = Some r1) as Hs0.
      { unfold aos_clear in E1. destruct (o_objs st !! d) eqn:Ha; simpl in E1; [|done].
        destruct (aos_dealloc _ _); simpl in E1; [|done]. injection E1 as <-. simpl in Hs.
        by rewrite (lookup_insert_ne _ d s) in Hs by done. }
      destruct (Hok s r1 Hs0) as (_ & _ & H). destruct (H Eo). lia.
    + simpl. destruct (alloc (o_heap st1) (S c)) as [h p] eqn:Ea. simpl. unfold aos_dealloc. simpl.
      rewrite lookup_insert. simpl.
      destruct (<[d:=_]> (o_objs st1) !! s) as [r2|] eqn:Hs2; simpl; [|done].
      destruct (copy _ _ _ _) as [h'|] eqn:Hc; simpl; [|done]. rewrite Hs2, lookup_insert. simpl.
      intros [= <-] b Hb. simpl in *.
      pose proof (copy_live_iff _ _ _ _ _ _ Hc Hb) as Hb1.
      destruct (alloc_live_iff _ _ _ _ _ Ea Hb1) as [->|Hb'].
      { right. eexists d, _. rewrite lookup_insert. done. }
      destruct (Hn1 b Hb') as [?|(o & a' & Ho & Ho1 & Ho2)]; [by left|].
      right. exists o, a'. split; [|done]. assert (d ≠ o).
      { intros <-. rewrite Hd1 in Ho. by injection Ho as <-. }
      by rewrite !lookup_insert_ne by done.
  - rewrite Hd1. simpl.
    destruct (<[d:=_]> (o_objs st1) !! s) as [r2|] eqn:Hs2; simpl; [|done]. rewrite lookup_insert. simpl.
    intros [= <-] b Hb. simpl in *.
    destruct (Hn1 b Hb) as [?|(o & a' & Ho & Ho1 & Ho2)]; [by left|].
    right. exists o, a'. split; [|done]. assert (d ≠ o).
    { intros <-. rewrite Hd1 in Ho. by injection Ho as <-. }
    by rewrite !lookup_insert_ne by done.
Qed.

Lemma soa_assign_noleak ext (st st' : sstate A) d s : soa_noleak ext st → soa_ok st → soa_assign st d s = Some st' →
  soa_noleak ext st'.
Proof.
  intros Hn Hok. unfold soa_assign.
  destruct (s_objs st !! d) as [a0|] eqn:Hd; simpl; [|done]. destruct (s_objs st !! s) as [r0|] eqn:Hs; simpl; [|done].
  rewrite lookup_insert. simpl.
  destruct (soa_dealloc _ _) as [h1|] eqn:Ede; simpl; [|done].
  rewrite !insert_insert, lookup_insert. simpl.
  assert (∀ b, is_Some (h1 !! b) → ext b ∨ ∃ o a, o ≠ d ∧ s_objs st !! o = Some a ∧ s_own a = true ∧ Some b ∈ pts a) as Hn1.
  { intros b Hb. unfold soa_dealloc in Ede. simpl in Ede.
    assert (is_Some (s_heap st !! b) ∧ (s_own a0 = true → Some b ∉ pts a0)) as [Hb' Hne].
    { destruct (s_own a0); [|injection Ede as <-; by split].
      destruct (free (s_heap st) (s_x a0)) as [g1|] eqn:F1; simpl in Ede; [|done].
      destruct (free g1 (s_y a0)) as [g2|] eqn:F2; simpl in Ede; [|done].
      destruct (free_live_iff _ _ _ _ Ede Hb) as [Hb1 N1].
      destruct (free_live_iff _ _ _ _ F2 Hb1) as [Hb2 N2].
      destruct (free_live_iff _ _ _ _ F1 Hb2) as [Hb3 N3].
      split; [done|]. intros _. unfold pts. rewrite elem3. intuition congruence. }
    destruct (Hn b Hb') as [?|(o & a' & Ho & Ho1 & Ho2)]; [by left|]. right. exists o, a'.
    split; [|done]. intros ->. rewrite Hd in Ho. injection Ho as <-. by apply Hne. }
  destruct (<[d:=_]> (s_objs st) !! s) as [r2|] eqn:Hs2; simpl; [|done].
  destruct (s_own r2 && (0 <? s_size r2)) eqn:Ec.
  - unfold soa_alloc. simpl.
    destruct (Nat.eqb_spec (s_cap r0) 0) as [E0|E0].
    + exfalso. apply andb_true_iff in Ec as [Ec1 Ec2]. apply Nat.ltb_lt in Ec2.
      destruct (decide (s = d)) as [->|Hne].
      { rewrite lookup_insert in Hs2. injection Hs2 as <-. done. }
      rewrite (lookup_insert_ne _ d s), Hs in Hs2 by done. injection Hs2 as <-.
      destruct (Hok s r0 Hs) as [? _]. lia.
    + destruct (alloc h1 _) as [g1 x] eqn:A1. destruct (alloc g1 _) as [g2 y] eqn:A2.
      destruct (alloc g2 _) as [g3 z] eqn:A3. simpl. rewrite !insert_insert.
      clear Hs2.
      destruct (<[d:=_]> (s_objs st) !! s) as [r3|] eqn:Hs3; simpl; [|done].
      destruct (copy g3 _ _ _) as [k1|] eqn:C1; simpl; [|done].
      destruct (copy k1 _ _ _) as [k2|] eqn:C2; simpl; [|done].
      destruct (copy k2 _ _ _) as [k3|] eqn:C3; simpl; [|done]. intros [= <-] b Hb. simpl in *.
      pose proof (copy_live_iff _ _ _ _ _ _ C3 Hb) as Hb1. pose proof (copy_live_iff _ _ _ _ _ _ C2 Hb1) as Hb2.
      pose proof (copy_live_iff _ _ _ _ _ _ C1 Hb2) as Hb3.
      destruct (alloc_live_iff _ _ _ _ _ A3 Hb3) as [->|Hb4].
      { right. eexists d, _. rewrite lookup_insert. split_and!; [done|done|]. unfold pts. rewrite elem3. simpl. tauto. }
      destruct (alloc_live_iff _ _ _ _ _ A2 Hb4) as [->|Hb5].
      { right. eexists d, _. rewrite lookup_insert. split_and!; [done|done|]. unfold pts. rewrite elem3. simpl. tauto. }
      destruct (alloc_live_iff _ _ _ _ _ A1 Hb5) as [->|Hb6].
      { right. eexists d, _. rewrite lookup_insert. split_and!; [done|done|]. unfold pts. rewrite elem3. simpl. tauto. }
      destruct (Hn1 b Hb6) as [?|(o & a' & Hne & Ho & Ho1 & Ho2)]; [by left|].
      right. exists o, a'. by rewrite (lookup_insert_ne _ d o) by done.
  - intros [= <-] b Hb. simpl in *. destruct (Hn1 b Hb) as [?|(o & a' & Hne & Ho & Ho1 & Ho2)]; [by left|].
    right. exists o, a'. rewrite (lookup_insert_ne _ d o) by done. by rewrite (lookup_insert_ne _ d o) by done.
Qed.
End Leak.

(** Witnesses *)
Definition ex_arr : astate nat :=
  AState {[ 7 := [Some 1; Some 2]; 8 := [Some 3] ]} {[ 0 := Arr (Some 7) 2 true; 1 := Arr (Some 8) 1 true ]}.
Lemma ex_arr_ok : arr_ok ex_arr.
Proof.
  intros o a Ho. unfold ex_arr in *. simpl in *.
  apply lookup_insert_Some in Ho as [[<- <-]|[_ Ho]].
  - split; [right; by exists 7, [Some 1; Some 2]|]. intros _ o' a' Hne Ho'.
    rewrite lookup_insert_ne in Ho' by done. apply lookup_singleton_Some in Ho' as [<- <-]. done.
  - apply lookup_singleton_Some in Ho as [<- <-].
    split; [right; by exists 8, [Some 3]|]. intros _ o' a' Hne Ho'.
    apply lookup_insert_Some in Ho' as [[<- <-]|[_ Ho']]; [done|].
    apply lookup_singleton_Some in Ho' as [<- <-]. done.
Qed.

Definition ex_aos : ostate nat :=
  OState {[ 7 := [Some 1; Some 2]; 8 := [Some 3] ]} {[ 0 := Aos true 2 2 (Some 7); 1 := Aos true 1 1 (Some 8) ]}.
Lemma ex_aos_ok : aos_ok ex_aos.
Proof.
  intros o a Ho. unfold ex_aos in *. simpl in *.
  apply lookup_insert_Some in Ho as [[<- <-]|[_ Ho]].
  - simpl. split; [done|]. split; [right; by exists 7, [Some 1; Some 2]|].
    intros _. split; [lia|]. intros o' a' Hne Ho'.
    rewrite lookup_insert_ne in Ho' by done. apply lookup_singleton_Some in Ho' as [<- <-]. done.
  - apply lookup_singleton_Some in Ho as [<- <-]. simpl. split; [done|].
    split; [right; by exists 8, [Some 3]|]. intros _. split; [lia|]. intros o' a' Hne Ho'.
    apply lookup_insert_Some in Ho' as [[<- <-]|[_ Ho']]; [done|].
    apply lookup_singleton_Some in Ho' as [<- <-]. done.
Qed.

Definition ex_soa : sstate nat :=
  SState {[ 7 := [Some 1; None]; 8 := [Some 3; None]; 9 := [Some 5; None] ]}
         {[ 0 := Soa true 1 2 (Some 7) (Some 8) (Some 9); 1 := Soa false 0 0 None None None ]}.
Lemma ex_soa_ok : soa_ok ex_soa.
Proof.
  intros o a Ho. unfold ex_soa in *. simpl in *.
  apply lookup_insert_Some in Ho as [[<- <-]|[_ Ho]].
  - simpl. split; [lia|]. split.
    + intros p Hp. right. unfold pts in Hp. simpl in Hp. apply elem3 in Hp as [-> | [-> | ->]].
      * by exists 7, [Some 1; None].
      * by exists 8, [Some 3; None].
      * by exists 9, [Some 5; None].
    + intros _. split; [unfold pts; simpl; by apply (bool_decide_unpack (NoDup [Some 7; Some 8; Some 9]))|].
      intros o' a' Hne Ho' p Hp. rewrite lookup_insert_ne in Ho' by done.
      apply lookup_singleton_Some in Ho' as [<- <-]. unfold pts in *. simpl in *.
      apply elem3 in Hp as [-> | [-> | ->]]; rewrite elem3; intuition congruence.
  - apply lookup_singleton_Some in Ho as [<- <-]. simpl. split; [done|]. split; [|done].
    intros p Hp. left. unfold pts in Hp. simpl in Hp. apply elem3 in Hp as [-> | [-> | ->]]; done.
Qed.

(** An allocated but empty source: the copy shares its storage. *)
Definition ex_soa_empty : sstate nat :=
  SState {[ 7 := [None; None]; 8 := [None; None]; 9 := [None; None] ]}
         {[ 0 := Soa true 0 2 (Some 7) (Some 8) (Some 9); 1 := Soa false 0 0 None None None ]}.
Lemma ex_soa_empty_ok : soa_ok ex_soa_empty.
Proof.
  intros o a Ho. unfold ex_soa_empty in *. simpl in *.
  apply lookup_insert_Some in Ho as [[<- <-]|[_ Ho]].
  - simpl. split; [lia|]. split.
    + intros p Hp. right. unfold pts in Hp. simpl in Hp. apply elem3 in Hp as [-> | [-> | ->]].
      * by exists 7, [None; None].
      * by exists 8, [None; None].
      * by exists 9, [None; None].
    + intros _. split; [unfold pts; simpl; by apply (bool_decide_unpack (NoDup [Some 7; Some 8; Some 9]))|].
      intros o' a' Hne Ho' p Hp. rewrite lookup_insert_ne in Ho' by done.
      apply lookup_singleton_Some in Ho' as [<- <-]. unfold pts in *. simpl in *.
      apply elem3 in Hp as [-> | [-> | ->]]; rewrite elem3; intuition congruence.
  - apply lookup_singleton_Some in Ho as [<- <-]. simpl. split; [done|]. split; [|done].
    intros p Hp. left. unfold pts in Hp. simpl in Hp. apply elem3 in Hp as [-> | [-> | ->]]; done.
Qed.
Lemma soa_empty_shares :
  ∃ st1 st2 st3, soa_assign ex_soa_empty 1 0 = Some st1 ∧ soa_push_back st1 0 1 1 1 = Some st2 ∧
    soa_get st2 0 0 = Some (1, 1, 1) ∧
    soa_push_back st2 1 2 2 2 = Some st3 ∧ soa_get st3 0 0 = Some (2, 2, 2).
Proof.
  eexists _, _, _. split; [vm_compute; reflexivity|]. split; [vm_compute; reflexivity|].
  split; [done|]. split; [vm_compute; reflexivity|]. done.
Qed.

Lemma ex_arr_noleak : arr_noleak (λ _, False) ex_arr.
Proof.
  intros b [c Hb]. right. unfold ex_arr in *. simpl in *.
  apply lookup_insert_Some in Hb as [[<- <-]|[_ Hb]]; [by eexists 0, _|].
  apply lookup_singleton_Some in Hb as [<- <-]. by eexists 1, _.
Qed.
