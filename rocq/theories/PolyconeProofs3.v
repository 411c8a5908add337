(** Inside and the safeties of a polycone. *)
From Coq Require Import Reals Lra Lia Bool.
From stdpp Require Import base list option numbers tactics.
From Verif Require Import Real3 BoxModel ConeModel ConeSpec ConeProofs PolyconeModel PolyconeSpec PolyconeProofs PolyconeProofs2.
Import stdpp.list.
Local Open Scope R_scope.

Lemma shifted_dist s p q : vdist (shifted s p) (shifted s q) = vdist p q.
Proof. unfold vdist, shifted. f_equal. apply v3_eq; cbn; ring. Qed.
Lemma vz_dist p q : vz q - vz p <= vdist p q.
Proof.
  unfold vdist. pose proof (vz_le_mag (vsub p q)) as H. apply abs_le_inv in H. cbn in H. lra.
Qed.
Lemma vz_dist' p q : vz p - vz q <= vdist p q.
Proof. rewrite vdist_comm. apply vz_dist. Qed.
Lemma tilted_width z1 r1 z2 r2 y1 y2 : z2 - z1 = y2 - y1 → tilted z1 r1 z2 r2 = tilted y1 r1 y2 r2.
Proof. unfold tilted. by intros ->. Qed.
Lemma line_centred z1 r1 z2 r2 z :
  line (- ((z2 - z1) / 2)) r1 ((z2 - z1) / 2) r2 (z - (z1 + 5 / 10 * (z2 - z1))) = line z1 r1 z2 r2 z.
Proof. rewrite <- (line_shift _ _ _ _ _ (z1 + 5 / 10 * (z2 - z1))). f_equal; field. Qed.

Lemma flush_ge s : kTolerance <= flush s → kTolerance <= s.
Proof. pose proof kTolerance_pos. unfold flush. rcase; lra. Qed.

Section polycone.
Variables (inf : R) (t : cone_type) (w : wedge_ops) (W : R → R → Prop) (dphi : R) (pls : list plane) (pc : polycone).
Let l := oriented pls.
Hypothesis Hs : stacked (2 * kTolerance) l.
Hypothesis Hr : radii_ok l.
Hypothesis Hf : ∀ a b, adjacent l a b → fits t (pl_rmin a) (pl_rmin b) dphi.
Hypothesis Hc : construct inf w dphi pls = Some pc.

(** The sections of the polycone and the bodies between the planes. *)
Lemma sections_of_planes : ∃ rext prev rest, l = prev :: rest ∧ pc_zs pc = heights prev rest ∧
  pc_sections pc = section_of rext dphi w <$> frusta prev rest.
Proof.
  pose proof kTolerance_pos. destruct (construct_built (2 * kTolerance) inf w dphi pls pc ltac:(lra) Hs Hc) as (prev & rest & E & Hb).
  destruct (b_secs _ _ _ _ _ _ Hb) as [rext Es]. exists rext, prev, rest. split; [done|]. split; [apply Hb|done].
Qed.
Lemma pc_spans : spans pc.
Proof.
  pose proof kTolerance_pos. destruct (construct_built (2 * kTolerance) inf w dphi pls pc ltac:(lra) Hs Hc) as (prev & rest & E & Hb).
  fold l in E. pose proof Hs as Hs'. rewrite E in Hs'. apply (built_spans (2 * kTolerance) _ _ _ _ _ ltac:(lra) Hs' Hb).
Qed.
Lemma pc_apart : apart (2 * kTolerance) (pc_zs pc).
Proof.
  pose proof kTolerance_pos. destruct (construct_built (2 * kTolerance) inf w dphi pls pc ltac:(lra) Hs Hc) as (prev & rest & E & Hb).
  fold l in E. pose proof Hs as Hs'. rewrite E in Hs'. apply (built_apart (2 * kTolerance) _ _ _ _ _ ltac:(lra) Hs' Hb).
Qed.
Lemma pc_increasing : increasing (pc_zs pc).
Proof. apply apart_increasing with (2 * kTolerance); [pose proof kTolerance_pos; lra|apply pc_apart]. Qed.
(** One section and its planes. *)
Record is_section (k : nat) (s : section) (a b : plane) : Prop := {
  is_adj : adjacent l a b; is_up : pl_z a < pl_z b; is_low : pc_zs pc !! k = Some (pl_z a);
  is_high : pc_zs pc !! S k = Some (pl_z b); is_sec : ∃ rext, s = section_of rext dphi w (a, b);
  is_at : ∃ prev rest, l = prev :: rest ∧ frusta prev rest !! k = Some (a, b)
}.
Lemma section_planes k s : pc_sections pc !! k = Some s → ∃ a b, is_section k s a b.
Proof.
  pose proof kTolerance_pos. destruct sections_of_planes as (rext & prev & rest & E & Ez & Es). pose proof Hs as Hs'. rewrite E in Hs'.
  rewrite Es, list_lookup_fmap. destruct (frusta prev rest !! k) as [[a b]|] eqn:Ek; [|done]. intros [= <-]. exists a, b.
  destruct (frusta_heights (2 * kTolerance) prev rest k a b ltac:(lra) Hs' Ek) as [H1 H2].
  pose proof (elem_of_list_lookup_2 _ _ _ Ek) as Hin. apply (frusta_adjacent (2 * kTolerance)) in Hin as [H3 H4]; [|lra|done].
  split; [by rewrite E|done|by rewrite Ez|by rewrite Ez|by exists rext|by exists prev, rest].
Qed.
Lemma planes_section a b : adjacent l a b → pl_z a < pl_z b → ∃ k s, pc_sections pc !! k = Some s ∧ is_section k s a b.
Proof.
  intros Hab Hlt. pose proof kTolerance_pos. destruct sections_of_planes as (rext & prev & rest & E & Ez & Es).
  pose proof Hs as Hs'. rewrite E in Hs', Hab.
  assert (Hin : (a, b) ∈ frusta prev rest) by (apply (frusta_adjacent (2 * kTolerance)); [lra|done|done]).
  apply elem_of_list_lookup_1 in Hin as [k Hk]. exists k, (section_of rext dphi w (a, b)). rewrite Es, list_lookup_fmap, Hk.
  split; [done|]. destruct (frusta_heights (2 * kTolerance) prev rest k a b ltac:(lra) Hs' Hk) as [H1 H2].
  split; [by rewrite E|done|by rewrite Ez|by rewrite Ez|by exists rext|by exists prev, rest].
Qed.
(** The body of a section. *)
Definition part (a b : plane) (p : v3) : Prop := joins a b p ∧ in_phi dphi W p.
Lemma solid_part p : solid dphi W l p ↔ ∃ a b, adjacent l a b ∧ part a b p.
Proof.
  unfold solid, body, part. split; [intros [(a & b & H1 & H2) H3]; eauto|]. intros (a & b & H1 & H2 & H3). eauto.
Qed.
Lemma part_section p : solid dphi W l p ↔ ∃ k s a b, pc_sections pc !! k = Some s ∧ is_section k s a b ∧ part a b p.
Proof.
  rewrite solid_part. split.
  - intros (a & b & H1 & H2). destruct (planes_section a b H1 (proj1 (proj1 H2))) as (k & s & H3 & H4). eauto 8.
  - intros (k & s & a & b & H1 & H2 & H3). exists a, b. split; [apply H2|done].
Qed.
Lemma part_range k s a b p : is_section k s a b → part a b p → in_range pc k p.
Proof. intros H [(Hlt & Hz & _) _]. exists (pl_z a), (pl_z b). split; [apply H|]. split; [apply H|done]. Qed.

(** * Inside *)
Lemma section_out k s a b p : wedge_tolerant w W → is_section k s a b →
  (0 < pl_rmin a ∨ 0 < pl_rmin b → pl_z a <= vz p <= pl_z b →
     tilted (pl_z a) (pl_rmin a) (pl_z b) (pl_rmin b) <= line (pl_z a) (pl_rmin a) (pl_z b) (pl_rmin b) (vz p)) →
  (cone_kernel t true (sec_solid s) (shifted s p)).2 = true → ¬ part a b p.
Proof.
  intros Hw Hi Ht Ho Hp. pose proof Hp as [(Hlt & Hz & _) _].
  destruct Hi as [Hadj _ _ _ [rext ->] _]. destruct (adjacent_elem _ _ _ Hadj) as [Hea Heb].
  apply (shifted_region rext dphi w W a b p Hlt) in Hp. revert Hp.
  apply (cone_kernel_out t (pl_rmin a) (pl_rmax a) (pl_rmin b) (pl_rmax b) ((pl_z b - pl_z a) / 2) dphi w W).
  - lra. - by apply Hr. - by apply Hr. - by apply Hf. - done.
  - intros Hm. rewrite (tilted_width _ _ _ _ (pl_z a) (pl_z b)) by lra.
    change (vz (shifted (section_of rext dphi w (a, b)) p)) with (vz p - (pl_z a + 5 / 10 * (pl_z b - pl_z a))).
    rewrite line_centred. by apply Ht.
  - exact Ho.
Qed.
Lemma section_in k s a b p : wedge_tolerant w W → is_section k s a b →
  (pl_z a <= vz p <= pl_z b → tilted (pl_z a) (pl_rmax a) (pl_z b) (pl_rmax b) <= line (pl_z a) (pl_rmax a) (pl_z b) (pl_rmax b) (vz p)) →
  (cone_kernel t true (sec_solid s) (shifted s p)).1 = true → part a b p.
Proof.
  intros Hw Hi Ht Ho. pose proof (is_up _ _ _ _ Hi) as Hlt.
  destruct Hi as [Hadj _ _ _ [rext ->] _]. destruct (adjacent_elem _ _ _ Hadj) as [Hea Heb].
  apply (shifted_region rext dphi w W a b p Hlt).
  apply (cone_inside_in t (pl_rmin a) (pl_rmax a) (pl_rmin b) (pl_rmax b) ((pl_z b - pl_z a) / 2) dphi w W).
  - lra. - by apply Hr. - by apply Hr. - by apply Hf. - done.
  - rewrite (tilted_width _ _ _ _ (pl_z a) (pl_z b)) by lra.
    change (vz (shifted (section_of rext dphi w (a, b)) p)) with (vz p - (pl_z a + 5 / 10 * (pl_z b - pl_z a))).
    rewrite line_centred. apply Ht.
    change (mk_cone (pl_rmin a) (pl_rmax a) (pl_rmin b) (pl_rmax b) ((pl_z b - pl_z a) / 2) dphi w) with
      (sec_solid (section_of rext dphi w (a, b))) in Ho.
    destruct (Rlt_dec (Rabs (vz (shifted (section_of rext dphi w (a, b)) p))) ((pl_z b - pl_z a) / 2)) as [Hz|Hz].
    + cbn in Hz. unfold Rabs in Hz. destruct (Rcase_abs _); lra.
    + exfalso. unfold cone_kernel in Ho. cbn [andb minus_tol plus_tol section_of sec_solid] in Ho.
      change (k_dz (mk_cone (pl_rmin a) (pl_rmax a) (pl_rmin b) (pl_rmax b) ((pl_z b - pl_z a) / 2) dphi w)) with ((pl_z b - pl_z a) / 2) in Ho.
      pose proof kConeTolerance_pos. cbn [section_of] in Hz.
      match type of Ho with context [rltb ?x ?y] => destruct (rltb_spec x y) as [Hx|Hx]; [lra|] end.
      cbn [andb] in Ho. repeat match type of Ho with context [if ?b then _ else _] => destruct b end; discriminate.
  - unfold cone_inside. cbn [sec_solid section_of] in Ho |- *.
    destruct (cone_kernel t true _ _) as [i o]. cbn in Ho. by subst i.
Qed.

Theorem polycone_outside p : wedge_tolerant w W →
  (∀ a b, adjacent l a b → 0 < pl_rmin a ∨ 0 < pl_rmin b → pl_z a < pl_z b → pl_z a <= vz p <= pl_z b →
     tilted (pl_z a) (pl_rmin a) (pl_z b) (pl_rmin b) <= line (pl_z a) (pl_rmin a) (pl_z b) (pl_rmin b) (vz p)) →
  poly_inside t pc p = Some kOutside → ¬ solid dphi W l p.
Proof.
  intros Hw Ht Ho Hp. apply part_section in Hp as (k & s & a & b & Hk & Hi & Hp).
  assert (Hno : (cone_kernel t true (sec_solid s) (shifted s p)).2 = true → False).
  { intros H. apply (section_out k s a b p Hw Hi); [|done|done]. intros. apply Ht; [apply Hi|done|apply Hi|done]. }
  destruct (poly_kernel_answer t pc pc_spans pc_apart true p) as (r & E & Ha).
  unfold poly_inside in Ho. rewrite E in Ho. cbn [mbind option_bind] in Ho.
  assert (Er : r = (false, true)) by (destruct r as [[] []]; cbn in Ho; congruence).
  pose proof (part_range k s a b p Hi Hp) as Hran.
  destruct Ha as [Hn|k' s' Hs' Hn|k' s' s'' c Hs' Hs'' Hc' Hz Hn].
  - by apply (Hn k s Hk).
  - destruct (decide (k = k')) as [->|Hne]; [|by apply (Hn k s Hk Hne)]. rewrite Hk in Hs'. injection Hs' as <-.
    apply Hno. by rewrite Er.
  - assert (Hb2 : (cone_kernel t true (sec_solid s') (shifted s' p)).2 = true ∧ (cone_kernel t true (sec_solid s'') (shifted s'' p)).2 = true).
    { unfold seam in Er.
      destruct (cone_kernel t true (sec_solid s') (shifted s' p)) as [[] []], (cone_kernel t true (sec_solid s'') (shifted s'' p)) as [[] []];
        cbn in Er; try discriminate; done. }
    destruct (decide (k = k')) as [->|Hne]; [rewrite Hk in Hs'; injection Hs' as <-; by apply Hno, (proj1 Hb2)|].
    destruct (decide (k = S k')) as [->|Hne']; [rewrite Hk in Hs''; injection Hs'' as <-; by apply Hno, (proj2 Hb2)|].
    by apply (Hn k s Hk Hne Hne').
Qed.
Theorem polycone_inside p : wedge_tolerant w W →
  (∀ a b, adjacent l a b → pl_z a < pl_z b → pl_z a <= vz p <= pl_z b →
     tilted (pl_z a) (pl_rmax a) (pl_z b) (pl_rmax b) <= line (pl_z a) (pl_rmax a) (pl_z b) (pl_rmax b) (vz p)) →
  poly_inside t pc p = Some kInside → solid dphi W l p ∨ ∃ a, a ∈ l ∧ Rabs (vz p - pl_z a) <= kTolerance.
Proof.
  intros Hw Ht Ho. destruct (poly_kernel_answer t pc pc_spans pc_apart true p) as (r & E & Ha).
  unfold poly_inside in Ho. rewrite E in Ho. cbn [mbind option_bind] in Ho.
  assert (Er : r.1 = true) by (destruct r as [[] []]; cbn in Ho |- *; congruence).
  destruct Ha as [Hn|k' s' Hs' Hn|k' s' s'' c Hs' Hs'' Hc' Hz Hn].
  - done.
  - left. destruct (section_planes k' s' Hs') as (a & b & Hi). apply part_section. exists k', s', a, b. split; [done|]. split; [done|].
    apply (section_in k' s' a b p Hw Hi); [|done]. intros. apply Ht; [apply Hi|apply Hi|done].
  - right. destruct (section_planes k' s' Hs') as (a & b & Hi). exists b.
    rewrite (is_high _ _ _ _ Hi) in Hc'. injection Hc' as <-. split; [|done]. by destruct (adjacent_elem _ _ _ (is_adj _ _ _ _ Hi)).
Qed.

(** * Safeties *)
Lemma section_safety_in k s a b p q : wedge_safe w W → is_section k s a b → part a b q →
  cone_safety_in t (sec_solid s) (shifted s p) <= vdist p q.
Proof.
  intros Hw Hi Hq. pose proof (is_up _ _ _ _ Hi) as Hlt.
  destruct Hi as [Hadj _ _ _ [rext ->] _]. destruct (adjacent_elem _ _ _ Hadj) as [Hea Heb].
  rewrite <- (shifted_dist (section_of rext dphi w (a, b)) p q). apply (shifted_region rext dphi w W a b q Hlt) in Hq.
  apply (cone_safety_in_le t (pl_rmin a) (pl_rmax a) (pl_rmin b) (pl_rmax b) ((pl_z b - pl_z a) / 2) dphi w W); [lra|by apply Hr|by apply Hr|by apply Hf|done|exact Hq].
Qed.
Lemma section_safety_out k s a b p q : wedge_safe w W → is_section k s a b → part a b p → ¬ part a b q →
  cone_safety_out t (sec_solid s) (shifted s p) <= vdist p q.
Proof.
  intros Hw Hi Hp Hq. pose proof (is_up _ _ _ _ Hi) as Hlt.
  destruct Hi as [Hadj _ _ _ [rext ->] _]. destruct (adjacent_elem _ _ _ Hadj) as [Hea Heb].
  rewrite <- (shifted_dist (section_of rext dphi w (a, b)) p q). apply (shifted_region rext dphi w W a b p Hlt) in Hp.
  apply (cone_safety_out_le t (pl_rmin a) (pl_rmax a) (pl_rmin b) (pl_rmax b) ((pl_z b - pl_z a) / 2) dphi w W); [lra|by apply Hr|by apply Hr|by apply Hf|done|exact Hp|].
  intros Hx. apply Hq. by apply (shifted_region rext dphi w W a b q Hlt).
Qed.
Lemma safety_loop_le dist q m : safety_loop t q dist [] m = m.
Proof. done. Qed.
Lemma safety_loop_min p dist L m : safety_loop t p dist L m <= m.
Proof.
  revert m. induction L as [|[z s] L IH]; intros m; cbn; [lra|]. destruct (rgeb _ _); [lra|].
  eapply Rle_trans; [apply IH|]. destruct (rltb_spec (cone_safety_in t (sec_solid s) (shifted s p)) m); lra.
Qed.
Lemma safety_loop_spec p dist L m k z s : L !! k = Some (z, s) →
  safety_loop t p dist L m <= cone_safety_in t (sec_solid s) (shifted s p) ∨
  ∃ j z' s', (j <= k)%nat ∧ L !! j = Some (z', s') ∧ safety_loop t p dist L m <= dist z'.
Proof.
  revert m k. induction L as [|[z0 s0] L IH]; intros m k Hk; [done|]. cbn.
  destruct (rgeb_spec (dist z0) m) as [Hge|Hlt].
  { right. exists 0%nat, z0, s0. split; [lia|]. split; [done|lra]. }
  destruct k as [|k].
  - injection Hk as -> ->. left. eapply Rle_trans; [apply safety_loop_min|]. rcase; lra.
  - destruct (IH (if rltb (cone_safety_in t (sec_solid s0) (shifted s0 p)) m then cone_safety_in t (sec_solid s0) (shifted s0 p) else m) k Hk)
      as [H|(j & z' & s' & Hj & Hl & H)]; [by left|].
    right. exists (S j), z', s'. split; [lia|]. by split.
Qed.
Lemma both_ways_le i p m r : both_ways t pc i p m = Some r → r <= m.
Proof.
  unfold both_ways. destruct (pc_zs pc !! (i + 1)%nat) as [zb|]; [|done]. cbn [mbind option_bind].
  destruct (i =? 0)%nat.
  { intros [= <-]. apply safety_loop_min. }
  destruct (pc_zs pc !! (i - 1)%nat); [|done]. intros [= <-]. eapply Rle_trans; [apply safety_loop_min|apply safety_loop_min].
Qed.

Theorem polycone_safety_out p q r : wedge_safe w W → poly_safety_out inf t pc p = Some r →
  solid dphi W l p → ¬ solid dphi W l q → r <= vdist p q.
Proof.
  intros Hw. pose proof (vdist_nonneg p q) as Hd. unfold poly_safety_out.
  destruct (poly_kernel t true pc p) as [[inn out]|]; [|done]. cbn [mbind option_bind].
  destruct out; [intros [= <-]; lra|].
  destruct (section_index_located pc (vz p) (proj1 pc_spans) pc_increasing) as (i & -> & Hl). cbn [mbind option_bind].
  destruct (Z.ltb_spec i 0) as [|Hi0]; [intros [= <-]; lra|].
  destruct Hl as [?|?|k a b Hk Ha Hb Hz _]; [lia|lia|].
  destruct (section_at pc k Hk) as (s & Hsk & ->). cbn [mbind option_bind]. rewrite Nat2Z.id.
  destruct (reqb _ inf); [intros [= <-]; lra|].
  destruct (rltb_spec (cone_safety_out t (sec_solid s) (shifted s p)) kTolerance) as [|Hge]; [intros [= <-]; lra|].
  intros Hbw Hp Hq. apply both_ways_le in Hbw. eapply Rle_trans; [exact Hbw|].
  destruct (section_planes k s Hsk) as (a' & b' & Hi).
  apply (section_safety_out k s a' b'); [done|done| |intros Hx; apply Hq; apply solid_part; exists a', b'; split; [apply Hi|done]].
  apply part_section in Hp as (j & s' & c & d & Hj & Hi' & Hp). destruct (decide (j = k)) as [->|Hne].
  { destruct (is_at _ _ _ _ Hi) as (pv & rs & E1 & E2), (is_at _ _ _ _ Hi') as (pv' & rs' & E3 & E4).
    rewrite E1 in E3. injection E3 as <- <-. rewrite E2 in E4. injection E4 as <- <-. done. }
  exfalso. pose proof (part_range _ _ _ _ _ Hi' Hp) as (a2 & b2 & Ha2 & Hb2 & Hz2).
  assert (Hedge : vz p = a ∨ vz p = b).
  { destruct (decide (j < k)%nat).
    - pose proof (increasing_le _ (S j) k _ _ pc_increasing ltac:(lia) Hb2 Ha). left. lra.
    - pose proof (increasing_le _ (S k) j _ _ pc_increasing ltac:(lia) Hb Ha2). right. lra. }
  pose proof (is_low _ _ _ _ Hi) as X1. pose proof (is_high _ _ _ _ Hi) as X2. rewrite Ha in X1. injection X1 as X1. rewrite Hb in X2. injection X2 as X2.
  pose proof (is_up _ _ _ _ Hi) as Hup. destruct Hi as [_ _ _ _ [rext ->] _].
  assert (Hab : Rabs (vz (shifted (section_of rext dphi w (a', b')) p)) = (pl_z b' - pl_z a') / 2).
  { cbn. unfold Rabs. destruct (Rcase_abs _), Hedge; lra. }
  pose proof kTolerance_pos as Htol.
  unfold cone_safety_out in Hge. 
  match type of Hge with context [if ?b then -1 else _] => destruct b end; [lra|].
  rewrite Hab in Hge. cbn [sec_solid section_of] in Hge.
  change (k_dz (mk_cone (pl_rmin a') (pl_rmax a') (pl_rmin b') (pl_rmax b') ((pl_z b' - pl_z a') / 2) dphi w)) with ((pl_z b' - pl_z a') / 2) in Hge.
  replace ((pl_z b' - pl_z a') / 2 - (pl_z b' - pl_z a') / 2) with 0 in Hge by ring.
  apply Rnot_lt_le, flush_ge in Hge.
  match type of Hge with context [Rmin 0 ?x] => pose proof (Rmin_l 0 x) as Hm; set (m0 := Rmin 0 x) in * end.
  match type of Hge with context [if ?b then _ else _] => destruct b end; [|lra].
  match type of Hge with context [Rmin ?y m0] => pose proof (Rmin_r y m0) as Hm2 end. lra.
Qed.

Lemma cone_safety_in_small c p : cone_safety_in t c p < kTolerance → cone_safety_in t c p <= 0.
Proof.
  pose proof kTolerance_pos. unfold cone_safety_in. match goal with |- context [if ?b then -1 else _] => destruct b end; [lra|].
  match goal with |- context [flush ?x] => set (y := x) end. unfold flush. intros Hlt. destruct (rltb_spec (Rabs y) kTolerance) as [|Hn]; [lra|].
  unfold Rabs in Hn. destruct (Rcase_abs y); lra.
Qed.
Lemma zip_lookup {A B} (xs : list A) (ys : list B) k x y : xs !! k = Some x → ys !! k = Some y → zip xs ys !! k = Some (x, y).
Proof. intros Hx Hy. rewrite lookup_zip_with, Hx. cbn. by rewrite Hy. Qed.
Lemma zip_lookup_inv {A B} (xs : list A) (ys : list B) k x y : zip xs ys !! k = Some (x, y) → xs !! k = Some x ∧ ys !! k = Some y.
Proof. rewrite lookup_zip_with_Some. by intros (x' & y' & [= <- <-] & Hx & Hy). Qed.

(** No section further down is thicker than the one below section [i]. *)
Definition thin_below (zs : list R) (i : nat) : Prop :=
  ∀ j a b c d, (j < i)%nat → zs !! j = Some a → zs !! S j = Some b → zs !! (i - 1)%nat = Some c → zs !! i = Some d → b - a <= d - c.

Theorem polycone_safety_in p q r : wedge_safe w W →
  (∃ a b, a ∈ pc_zs pc ∧ b ∈ pc_zs pc ∧ a <= vz p <= b) →
  (∀ i, section_index pc (vz p) = Some (Z.of_nat i) → thin_below (pc_zs pc) i) →
  poly_safety_in t pc p = Some r → solid dphi W l q → r <= vdist p q.
Proof.
  intros Hw Hran Hthin Hsf Hq. pose proof (vdist_nonneg p q) as Hd. unfold poly_safety_in in Hsf. pose proof pc_increasing as Hinc.
  destruct (section_index_located pc (vz p) (proj1 pc_spans) Hinc) as (i & Ei & Hl). rewrite Ei in Hsf. cbn [mbind option_bind] in Hsf.
  apply part_section in Hq as (j & s' & a' & b' & Hj & Hi' & Hq).
  assert (Hne : pc_sections pc ≠ []) by (intros E; rewrite E in Hj; done).
  destruct Hran as (x & y & Hx & Hy & Hz). apply elem_of_list_lookup in Hx as [kx Hx], Hy as [ky Hy].
  destruct Hl as [z0 Hz0 Hlt|z0 z1 Hz0 Hge Hz1 Hn|k a b Hk Ha Hb Hzab _].
  { pose proof (increasing_le _ 0 kx _ _ Hinc ltac:(lia) Hz0 Hx). lra. }
  { apply Hn in Hne. pose proof (lookup_lt_Some _ _ _ Hy). pose proof (proj1 pc_spans).
    pose proof (increasing_le _ ky (length (pc_sections pc)) _ _ Hinc ltac:(lia) Hy Hz1). lra. }
  specialize (Hthin k Ei). destruct (section_at pc k Hk) as (s & Hsk & Hgk).
  destruct (Z.ltb_spec (Z.of_nat k) 0); [lia|]. destruct (Z.eqb_spec (Z.of_nat k) (-1)); [lia|].
  destruct (Z.eqb_spec (Z.of_nat k) (-2)); [lia|]. rewrite Hgk in Hsf. cbn [mbind option_bind] in Hsf.
  destruct (rltb_spec (cone_safety_in t (sec_solid s) (shifted s p)) kTolerance) as [Hsm|Hbig].
  { injection Hsf as <-. apply cone_safety_in_small in Hsm. lra. }
  rewrite Nat2Z.id in Hsf. pose proof (section_safety_in j s' a' b' p q Hw Hi' Hq) as Hsj.
  pose proof (is_low _ _ _ _ Hi') as Hlo. pose proof (is_high _ _ _ _ Hi') as Hhi.
  destruct Hq as [(_ & Hqz & _) _].
  destruct (decide (j = k)) as [->|Hjk].
  { rewrite Hsk in Hj. injection Hj as <-. apply both_ways_le in Hsf. lra. }
  unfold both_ways in Hsf. replace (k + 1)%nat with (S k) in Hsf by lia. rewrite Hb in Hsf. cbn [mbind option_bind] in Hsf.
  set (R1 := safety_loop t p (λ z, z - b) (zip (drop (S k) (pc_zs pc)) (drop (S k) (pc_sections pc))) (cone_safety_in t (sec_solid s) (shifted s p))) in *.
  destruct (decide (k < j)%nat) as [Hkj|Hkj].
  - assert (HR : R1 <= vdist p q).
    { destruct (safety_loop_spec p (λ z, z - b) (zip (drop (S k) (pc_zs pc)) (drop (S k) (pc_sections pc)))
        (cone_safety_in t (sec_solid s) (shifted s p)) (j - S k) (pl_z a') s') as [H1|(j' & z' & s'' & Hle & Hlk & H1)].
      { apply zip_lookup; rewrite lookup_drop; replace (S k + (j - S k))%nat with j by lia; done. }
      - unfold R1. lra.
      - apply zip_lookup_inv in Hlk as [Hlk _]. rewrite lookup_drop in Hlk.
        pose proof (increasing_le _ (S k + j') j _ _ Hinc ltac:(lia) Hlk Hlo). pose proof (vz_dist p q). unfold R1. lra. }
    destruct (Nat.eqb_spec k 0); [by injection Hsf as <-|]. destruct (pc_zs pc !! (k - 1)%nat); [|done]. injection Hsf as <-.
    eapply Rle_trans; [apply safety_loop_min|done].
  - destruct (Nat.eqb_spec k 0); [lia|]. destruct (pc_zs pc !! (k - 1)%nat) as [zl|] eqn:Ezl; [|done]. injection Hsf as <-.
    set (L := zip (take k (pc_zs pc)) (take k (pc_sections pc))) in *.
    assert (HL : length L = k).
    { unfold L. rewrite zip_with_length, !take_length, (proj1 pc_spans). lia. }
    destruct (safety_loop_spec p (λ z, zl - z) (reverse L) R1 (k - S j) (pl_z a') s') as [H1|(j' & z' & s'' & Hle & Hlk & H1)].
    { rewrite reverse_lookup by (rewrite HL; lia). rewrite HL. replace (k - S (k - S j))%nat with j by lia.
      apply zip_lookup; (rewrite lookup_take by lia); done. }
    + lra.
    + rewrite reverse_lookup in Hlk by (rewrite HL; lia). rewrite HL in Hlk. apply zip_lookup_inv in Hlk as [Hlk _].
      rewrite lookup_take in Hlk by lia. set (m := (k - S j')%nat) in *.
      destruct (zs_at pc pc_spans (S m)) as [zn Hzn]; [unfold m; lia|].
      pose proof (Hthin m z' zn zl a ltac:(unfold m; lia) Hlk Hzn Ezl Ha).
      pose proof (increasing_le _ (S j) (S m) _ _ Hinc ltac:(unfold m; lia) Hhi Hzn). pose proof (vz_dist' p q). lra.
Qed.
End polycone.
