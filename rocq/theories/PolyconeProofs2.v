(** The constructor builds the section list of the planes; Contains decides the solid. *)
From Coq Require Import Reals Lra Lia Bool.
From stdpp Require Import base list option numbers tactics.
From Verif Require Import Real3 BoxModel ConeModel ConeSpec ConeProofs PolyconeModel PolyconeSpec PolyconeProofs.
Import stdpp.list.
Local Open Scope R_scope.

(** The pairs of neighbouring planes with a body between them, in order. *)
Fixpoint frusta (prev : plane) (rest : list plane) : list (plane * plane) :=
  match rest with
  | [] => []
  | a :: r => if rltb (pl_z prev) (pl_z a) then (prev, a) :: frusta a r else frusta a r
  end.
Definition section_of (rext dphi : R) (w : wedge_ops) (ab : plane * plane) : section :=
  let '(a, b) := ab in
  Section_ (pl_z a + 5 / 10 * (pl_z b - pl_z a))
    (mk_cone (pl_rmin a) (pl_rmax a) (pl_rmin b) (pl_rmax b) ((pl_z b - pl_z a) / 2) dphi w)
    (negb (rltb (pl_rmax b) (pl_rmax a) || rltb (pl_rmax b) rext || rltb (pl_rmax a) rext)).
Definition heights (prev : plane) (rest : list plane) : list R := pl_z prev :: ((λ ab, pl_z ab.2) <$> frusta prev rest).

Lemma adjacent_cons l c a b : adjacent l a b → adjacent (c :: l) a b.
Proof. intros (l1 & l2 & ->). by exists (c :: l1), l2. Qed.
Lemma adjacent_head a b l : adjacent (a :: b :: l) a b.
Proof. by exists [], l. Qed.
Lemma adjacent_cons_inv c d l a b : adjacent (c :: d :: l) a b → (a = c ∧ b = d) ∨ adjacent (d :: l) a b.
Proof.
  intros ([|e l1] & l2 & E); [injection E as -> -> _; by left|]. injection E as -> E. right. by exists l1, l2.
Qed.
Lemma adjacent_one c a b : ¬ adjacent [c] a b.
Proof. intros ([|e [|? ?]] & l2 & E); discriminate. Qed.
Lemma stacked_tail g c l : stacked g (c :: l) → stacked g l.
Proof. intros H a b Hab. apply H. by apply adjacent_cons. Qed.
Lemma adjacent_elem l a b : adjacent l a b → a ∈ l ∧ b ∈ l.
Proof. intros (l1 & l2 & ->). rewrite !elem_of_app, !elem_of_cons. tauto. Qed.

Lemma frusta_adjacent g prev rest a b : 0 <= g → stacked g (prev :: rest) →
  (a, b) ∈ frusta prev rest ↔ adjacent (prev :: rest) a b ∧ pl_z a < pl_z b.
Proof.
  intros Hg. revert prev. induction rest as [|c rest IH]; intros prev Hs; cbn.
  - split; [intros H; by apply not_elem_of_nil in H|]. intros [H _]. by apply adjacent_one in H.
  - specialize (IH c (stacked_tail _ _ _ Hs)).
    destruct (rltb_spec (pl_z prev) (pl_z c)) as [Hlt|Hge].
    + rewrite elem_of_cons, IH. split.
      * intros [[= -> ->]|[H1 H2]]; [split; [apply adjacent_head|done]|]. split; [by apply adjacent_cons|done].
      * intros [H1 H2]. apply adjacent_cons_inv in H1 as [[-> ->]|H1]; [by left|by right].
    + rewrite IH. split; [intros [H1 H2]; split; [by apply adjacent_cons|done]|].
      intros [H1 H2]. apply adjacent_cons_inv in H1 as [[-> ->]|H1]; [lra|done].
Qed.
Lemma frusta_heights g prev rest k a b : 0 <= g → stacked g (prev :: rest) → frusta prev rest !! k = Some (a, b) →
  heights prev rest !! k = Some (pl_z a) ∧ heights prev rest !! S k = Some (pl_z b).
Proof.
  intros Hg. revert prev k. induction rest as [|c rest IH]; intros prev k Hs H; [done|].
  unfold heights in *. cbn [frusta] in *. specialize (IH c). pose proof (stacked_tail _ _ _ Hs) as Hs'.
  destruct (rltb_spec (pl_z prev) (pl_z c)) as [Hlt|Hge].
  - destruct k as [|k]; [injection H as -> ->; done|]. cbn in H |- *. apply (IH k Hs' H).
  - destruct (Hs prev c (adjacent_head _ _ _)) as [E|E]; [|lra]. rewrite E. by apply IH.
Qed.
Lemma init_loop_frusta g rext dphi w prev rest zs secs :
  kTolerance <= g → stacked g (prev :: rest) → last zs = Some (pl_z prev) →
  init_loop true rext dphi w prev rest zs secs =
  Some (zs ++ ((λ ab, pl_z ab.2) <$> frusta prev rest), secs ++ (section_of rext dphi w <$> frusta prev rest)).
Proof.
  intros Hg. pose proof kTolerance_pos as Ht. revert prev zs secs.
  induction rest as [|c rest IH]; intros prev zs secs Hs Hl; [cbn; by rewrite !app_nil_r|].
  cbn [init_loop frusta]. unfold init_step. rewrite andb_true_r, andb_false_r, orb_false_r.
  pose proof (stacked_tail _ _ _ Hs) as Hs'.
  destruct (rltb_spec (pl_z prev) (pl_z c)) as [Hlt|Hge].
  - destruct (Hs prev c (adjacent_head _ _ _)) as [E|E]; [lra|].
    destruct (rgtb_spec (pl_z c) (pl_z prev + kTolerance)); [|lra].
    rewrite Hl. cbn [mbind option_bind]. rewrite IH; [|done|by rewrite last_snoc].
    rewrite !fmap_cons, <- !(assoc_L (++)). cbn. done.
  - destruct (Hs prev c (adjacent_head _ _ _)) as [E|E]; [|lra].
    destruct (rgtb_spec (pl_z c) (pl_z prev + kTolerance)); [lra|]. cbn [mbind option_bind].
    apply IH; [done|]. by rewrite <- E.
Qed.
Lemma heights_apart g prev rest : 0 <= g → stacked g (prev :: rest) → apart g (heights prev rest).
Proof.
  intros Hg Hs i x y Hx Hy.
  destruct (frusta prev rest !! i) as [[a b]|] eqn:E.
  - destruct (frusta_heights g prev rest i a b Hg Hs E) as [H1 H2]. rewrite Hx in H1. rewrite Hy in H2.
    injection H1 as ->. injection H2 as ->. apply elem_of_list_lookup_2 in E.
    apply (frusta_adjacent g prev rest a b Hg Hs) in E as [E1 E2]. destruct (Hs a b E1); lra.
  - exfalso. unfold heights in Hy. change ((((λ ab : plane * plane, pl_z ab.2) <$> frusta prev rest) !! i) = Some y) in Hy. rewrite list_lookup_fmap, E in Hy. done.
Qed.

(** What the constructor leaves behind. *)
Record built (g : R) (w : wedge_ops) (dphi : R) (prev : plane) (rest : list plane) (pc : polycone) : Prop := {
  b_zs : pc_zs pc = heights prev rest;
  b_secs : ∃ rext, pc_sections pc = section_of rext dphi w <$> frusta prev rest
}.
Lemma construct_built g inf w dphi pls pc :
  kTolerance <= g → stacked g (oriented pls) → construct inf w dphi pls = Some pc →
  ∃ prev rest, oriented pls = prev :: rest ∧ built g w dphi prev rest pc.
Proof.
  intros Hg Hs. unfold construct, init.
  destruct (oriented pls) as [|a0 [|a1 rest]] eqn:E; [done|done|].
  destruct (reduced (a0 :: a1 :: rest)) as [|[b0 b1] red]; [done|]. intros H. exists a0, (a1 :: rest). split; [done|].
  pose proof kTolerance_pos. assert (Hp : negb (rltb (pl_z a1) (pl_z a0)) = true).
  { destruct (rltb_spec (pl_z a1) (pl_z a0)); [|done]. destruct (Hs a0 a1 (adjacent_head _ _ _)); lra. }
  rewrite Hp in H. cbn [blank pc_zs pc_sections app] in H.
  rewrite (init_loop_frusta g) in H; [|done|done|done]. cbn [mbind option_bind app] in H. injection H as <-.
  split; [reflexivity|]. cbn. by eexists.
Qed.

Section built.
Variables (g : R) (w : wedge_ops) (dphi : R) (prev : plane) (rest : list plane) (pc : polycone).
Hypothesis Hg : 0 <= g.
Hypothesis Hs : stacked g (prev :: rest).
Hypothesis Hb : built g w dphi prev rest pc.

Lemma built_section k s : pc_sections pc !! k = Some s ↔
  ∃ a b, frusta prev rest !! k = Some (a, b) ∧ ∃ rext, pc_sections pc = section_of rext dphi w <$> frusta prev rest ∧ s = section_of rext dphi w (a, b).
Proof.
  destruct (b_secs _ _ _ _ _ _ Hb) as (rext & E). split.
  - intros H. rewrite E in H. rewrite list_lookup_fmap in H. destruct (frusta prev rest !! k) as [[a b]|] eqn:E'; [|done].
    injection H as <-. exists a, b. split; [done|]. by exists rext.
  - intros (a & b & H & rext' & E' & ->). rewrite E'. rewrite list_lookup_fmap, H. done.
Qed.
Lemma built_spans : spans pc.
Proof.
  destruct (b_secs _ _ _ _ _ _ Hb) as (rext & E). pose proof (b_zs _ _ _ _ _ _ Hb) as Ez. split.
  - rewrite E, Ez. unfold heights. cbn. by rewrite !fmap_length.
  - intros k s Hk. apply built_section in Hk as (a & b & H & rext' & _ & ->).
    destruct (frusta_heights g prev rest k a b Hg Hs H) as [H1 H2].
    exists (pl_z a), (pl_z b). rewrite Ez. split; [done|]. split; [done|]. cbn. split; [field|done].
Qed.
Lemma built_apart : apart g (pc_zs pc).
Proof. rewrite (b_zs _ _ _ _ _ _ Hb). by apply heights_apart. Qed.
End built.

(** In the frame of its section, the body between two planes is centred. *)
Lemma shifted_region rext dphi w W a b p : pl_z a < pl_z b →
  (cone_section (- ((pl_z b - pl_z a) / 2)) (pl_rmin a) (pl_rmax a) ((pl_z b - pl_z a) / 2) (pl_rmin b) (pl_rmax b)
    (shifted (section_of rext dphi w (a, b)) p) ∧ in_phi dphi W (shifted (section_of rext dphi w (a, b)) p)) ↔
  joins a b p ∧ in_phi dphi W p.
Proof.
  intros Hz. set (s := pl_z a + 5 / 10 * (pl_z b - pl_z a)).
  assert (E : cone_section (- ((pl_z b - pl_z a) / 2)) (pl_rmin a) (pl_rmax a) ((pl_z b - pl_z a) / 2) (pl_rmin b) (pl_rmax b)
    (shifted (section_of rext dphi w (a, b)) p) ↔ cone_section (pl_z a) (pl_rmin a) (pl_rmax a) (pl_z b) (pl_rmin b) (pl_rmax b) p).
  { unfold cone_section.
    assert (Er : rho (shifted (section_of rext dphi w (a, b)) p) = rho p) by (unfold rho, shifted, vsub; cbn; f_equal; ring).
    assert (El : ∀ r r', line (- ((pl_z b - pl_z a) / 2)) r ((pl_z b - pl_z a) / 2) r' (vz (shifted (section_of rext dphi w (a, b)) p))
        = line (pl_z a) r (pl_z b) r' (vz p)).
    { intros r r'. rewrite <- (line_shift _ _ _ _ _ s). unfold shifted, vsub, s; cbn. f_equal; field. }
    rewrite Er, !El. unfold shifted, vsub; cbn. split; intros ((H1 & H2) & H3); (split; [lra|done]). }
  assert (Ei : in_phi dphi W (shifted (section_of rext dphi w (a, b)) p) ↔ in_phi dphi W p).
  { unfold in_phi, shifted, vsub; cbn. by rewrite !Rminus_0_r. }
  rewrite E, Ei. unfold joins. tauto.
Qed.
(** The section between two planes contains the points between them. *)
Lemma section_contains t rext dphi w W a b p :
  pl_z a < pl_z b → 0 <= pl_rmin a < pl_rmax a → 0 <= pl_rmin b < pl_rmax b → fits t (pl_rmin a) (pl_rmin b) dphi →
  wedge_decides w W →
  cone_contains t (sec_solid (section_of rext dphi w (a, b))) (shifted (section_of rext dphi w (a, b)) p) = true ↔
  joins a b p ∧ in_phi dphi W p.
Proof.
  intros Hz Ha Hb Hf Hw. rewrite <- (shifted_region rext dphi w W a b p Hz).
  change (sec_solid (section_of rext dphi w (a, b))) with
    (mk_cone (pl_rmin a) (pl_rmax a) (pl_rmin b) (pl_rmax b) ((pl_z b - pl_z a) / 2) dphi w).
  apply cone_contains_section; [lra|done|done|done|done].
Qed.

Theorem construct_contains inf t w W dphi pls pc p :
  wedge_decides w W → stacked (2 * kTolerance) (oriented pls) → radii_ok (oriented pls) →
  (∀ a b, adjacent (oriented pls) a b → fits t (pl_rmin a) (pl_rmin b) dphi) →
  construct inf w dphi pls = Some pc →
  ∃ b, poly_contains t pc p = Some b ∧ (b = true ↔ solid dphi W (oriented pls) p).
Proof.
  intros Hw Hs Hr Hf Hc. pose proof kTolerance_pos.
  destruct (construct_built (2 * kTolerance) inf w dphi pls pc ltac:(lra) Hs Hc) as (prev & rest & E & Hb). rewrite E in *.
  pose proof (built_spans (2 * kTolerance) _ _ _ _ _ ltac:(lra) Hs Hb) as Hsp. pose proof (built_apart (2 * kTolerance) _ _ _ _ _ ltac:(lra) Hs Hb) as Hap.
  destruct (poly_contains_sections t pc Hsp Hap p) as (b & Eb & Hbi). exists b. split; [done|]. rewrite Hbi. unfold in_some_section, solid, body.
  split.
  - intros (k & s & Hk & Hcs). apply (built_section _ _ _ _ _ _ Hb) in Hk as (x & y & Hxy & rext & _ & ->).
    apply elem_of_list_lookup_2 in Hxy. apply (frusta_adjacent (2 * kTolerance)) in Hxy as [Hadj Hlt]; [|lra|done].
    destruct (adjacent_elem _ _ _ Hadj) as [Hx Hy].
    apply (section_contains t rext dphi w W x y p) in Hcs as [H1 H2]; [|done|by apply Hr|by apply Hr|by apply Hf|done].
    split; [|done]. by exists x, y.
  - intros [(x & y & Hadj & Hbt) Hph]. destruct (adjacent_elem _ _ _ Hadj) as [Hx Hy].
    assert (Hxy : (x, y) ∈ frusta prev rest). { apply (frusta_adjacent (2 * kTolerance)); [lra|done|]. split; [done|apply Hbt]. }
    apply elem_of_list_lookup_1 in Hxy as [k Hk]. destruct (b_secs _ _ _ _ _ _ Hb) as (rext & Es).
    exists k, (section_of rext dphi w (x, y)). split; [rewrite Es, list_lookup_fmap, Hk; done|].
    apply (section_contains t rext dphi w W x y p); eauto. apply Hbt.
Qed.

(** * The maker picks kernels that fit *)
Lemma oriented_elem pls a : a ∈ oriented pls ↔ a ∈ pls.
Proof.
  unfold oriented. destruct (head pls), (last pls); try done. destruct (rgtb _ _); [|done]. by rewrite elem_of_reverse.
Qed.
Theorem maker_contains inf w W dphi pls t pc p :
  wedge_decides w W → stacked (2 * kTolerance) (oriented pls) → radii_ok pls →
  maker inf w dphi pls = Some (MadePolycone t pc) →
  ∃ b, poly_contains t pc p = Some b ∧ (b = true ↔ solid dphi W (oriented pls) p).
Proof.
  intros Hw Hs Hr Hm. assert (Hr' : radii_ok (oriented pls)) by (intros a Ha; apply Hr; by apply oriented_elem).
  pose proof PI2_1 as HPI.
  assert (Hcore : ∀ d, construct inf w d pls = Some pc → (∀ a b, a ∈ pls → b ∈ pls → fits t (pl_rmin a) (pl_rmin b) d) →
            (∀ q, in_phi d W q ↔ in_phi dphi W q) →
            ∃ b, poly_contains t pc p = Some b ∧ (b = true ↔ solid dphi W (oriented pls) p)).
  { intros d Hc Hf Hph. destruct (construct_contains inf t w W d pls pc p Hw Hs Hr') as (b & Eb & Hb); [|done|].
    - intros x y Hxy. destruct (adjacent_elem _ _ _ Hxy) as [Hx Hy]. apply Hf; by apply oriented_elem.
    - exists b. split; [done|]. rewrite Hb. unfold solid. by rewrite Hph. }
  assert (Hfull : ∀ q, 2 * PI <= dphi → in_phi (2 * PI) W q ↔ in_phi dphi W q).
  { intros q Hd. unfold in_phi. split; intros _ H; lra. }
  unfold maker in Hm. destruct pls as [|a0 [|a1 [|a2 rest]]].
  { assert (Hn : ∀ d, construct inf w d [] = None) by reflexivity. rewrite !Hn in Hm.
    repeat match type of Hm with context [if ?b then _ else _] => destruct b end; discriminate. }
  { assert (Hn : ∀ d, construct inf w d [a0] = None).
    { intros d. unfold construct, init, oriented. cbn. destruct (rgtb _ _); reflexivity. }
    rewrite !Hn in Hm. repeat match type of Hm with context [if ?b then _ else _] => destruct b end; discriminate. }
  { discriminate. }
  set (l := a0 :: a1 :: a2 :: rest) in *.
  destruct (forallb (λ a, rleb (pl_rmin a) 0) l && rgeb dphi (2 * PI)) eqn:E1.
  { apply andb_true_iff in E1 as [E1 E1']. rewrite forallb_forall in E1. destruct (rgeb_spec dphi (2 * PI)); [|done].
    destruct (construct inf w (2 * PI) l) eqn:Ec; [|done]. injection Hm as <- <-. apply (Hcore (2 * PI)); [done| |intros; apply Hfull; lra].
    intros a b Ha Hb. cbn. apply elem_of_list_In in Ha, Hb. apply E1 in Ha, Hb. apply rleb_true in Ha, Hb. lra. }
  destruct (forallb (λ a, rleb (pl_rmin a) 0) l && reqb dphi PI) eqn:E2.
  { apply andb_true_iff in E2 as [E2 E2']. rewrite forallb_forall in E2. apply reqb_true in E2'. 
    destruct (construct inf w dphi l) eqn:Ec; [|done]. injection Hm as <- <-. apply (Hcore dphi); [done| |done].
    intros a b Ha Hb. cbn. apply elem_of_list_In in Ha, Hb. apply E2 in Ha, Hb. apply rleb_true in Ha, Hb. rewrite E2'. lra. }
  destruct (forallb (λ a, rgtb (pl_rmin a) 0) l && rgeb dphi (2 * PI)) eqn:E3.
  { apply andb_true_iff in E3 as [E3 E3']. rewrite forallb_forall in E3. destruct (rgeb_spec dphi (2 * PI)); [|done].
    destruct (construct inf w (2 * PI) l) eqn:Ec; [|done]. injection Hm as <- <-. apply (Hcore (2 * PI)); [done| |intros; apply Hfull; lra].
    intros a b Ha Hb. cbn. apply elem_of_list_In in Ha. apply E3 in Ha. unfold rgtb in Ha. apply rltb_true in Ha. lra. }
  destruct (forallb (λ a, rgtb (pl_rmin a) 0) l && reqb dphi PI) eqn:E4.
  { apply andb_true_iff in E4 as [E4 E4']. rewrite forallb_forall in E4. apply reqb_true in E4'.
    destruct (construct inf w dphi l) eqn:Ec; [|done]. injection Hm as <- <-. apply (Hcore dphi); [done| |done].
    intros a b Ha Hb. cbn. apply elem_of_list_In in Ha. apply E4 in Ha. unfold rgtb in Ha. apply rltb_true in Ha. rewrite E4'. lra. }
  destruct (construct inf w dphi l) eqn:Ec; [|done]. injection Hm as <- <-. by apply (Hcore dphi).
Qed.
