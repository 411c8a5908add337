(** What a polycone is, stated without the code that builds and queries it. *)
From Coq Require Import Reals Lra.
From stdpp Require Import base list option numbers.
From Verif Require Import Real3 BoxModel ConeModel ConeSpec PolyconeModel.
Import stdpp.list.
Local Open Scope R_scope.

(** Two planes next to each other in the list. *)
Definition adjacent (l : list plane) (a b : plane) : Prop := ∃ l1 l2, l = l1 ++ a :: b :: l2.
(** The body between two planes. *)
Definition joins (a b : plane) (p : v3) : Prop :=
  pl_z a < pl_z b ∧ cone_section (pl_z a) (pl_rmin a) (pl_rmax a) (pl_z b) (pl_rmin b) (pl_rmax b) p.
(** The polycone: the bodies between neighbouring planes, cut by the phi section. *)
Definition body (l : list plane) (p : v3) : Prop := ∃ a b, adjacent l a b ∧ joins a b p.
Definition solid (dphi : R) (W : R → R → Prop) (l : list plane) (p : v3) : Prop := body l p ∧ in_phi dphi W p.
(** Heights never go down; a step up is larger than [g]. *)
Definition stacked (g : R) (l : list plane) : Prop := ∀ a b, adjacent l a b → pl_z a = pl_z b ∨ pl_z a + g < pl_z b.
Definition radii_ok (l : list plane) : Prop := ∀ a, a ∈ l → 0 <= pl_rmin a < pl_rmax a.
(** Strictly increasing sequence. *)
Definition increasing (zs : list R) : Prop :=
  ∀ i j a b, (i < j)%nat → zs !! i = Some a → zs !! j = Some b → a < b.
(** The sections lie between consecutive heights. *)
Definition spans (pc : polycone) : Prop :=
  length (pc_zs pc) = S (length (pc_sections pc)) ∧
  ∀ k s, pc_sections pc !! k = Some s → ∃ a b, pc_zs pc !! k = Some a ∧ pc_zs pc !! S k = Some b ∧
    sec_shift s = (a + b) / 2 ∧ k_dz (sec_solid s) = (b - a) / 2.
(** Consecutive heights are more than [g] apart. *)
Definition apart (g : R) (zs : list R) : Prop := ∀ i a b, zs !! i = Some a → zs !! S i = Some b → a + g < b.
(** Some section contains the point. *)
Definition in_some_section (t : cone_type) (pc : polycone) (p : v3) : Prop :=
  ∃ k s, pc_sections pc !! k = Some s ∧ cone_contains t (sec_solid s) (shifted s p) = true.
(** A set is convex. *)
Definition convex (S : v3 → Prop) : Prop :=
  ∀ p q u, S p → S q → 0 <= u <= 1 → S (vadd (vscale (1 - u) p) (vscale u q)).
(** A ray enters the set after [D]: not in it before, in it right after. *)
Definition enters (S : v3 → Prop) (p d : v3) (D : R) : Prop :=
  0 <= D ∧ (∀ u, 0 < u < D → ¬ S (along p d u)) ∧ ∃ e, 0 < e ∧ ∀ u, D < u < D + e → S (along p d u).
Definition avoids (S : v3 → Prop) (p d : v3) : Prop := ∀ u, 0 < u → ¬ S (along p d u).
(** Right after time [T] the ray is not in the set. *)
Definition gone (S : v3 → Prop) (p d : v3) (T : R) : Prop := ∃ e, 0 < e ∧ ∀ u, T < u < T + e → ¬ S (along p d u).
(** From time [T] on the ray stays in the set for [D], then it is gone. *)
Definition stays (S : v3 → Prop) (p d : v3) (T D : R) : Prop :=
  0 <= D ∧ (∀ u, T < u < T + D → S (along p d u)) ∧ gone S p d (T + D).
(** The open bodies of the sections: each lies strictly between the heights of its planes. *)
Definition confined (zs : list R) (S : nat → v3 → Prop) : Prop :=
  ∀ k p, S k p → ∃ a b, zs !! k = Some a ∧ zs !! (k + 1)%nat = Some b ∧ a < vz p < b.
Definition any_of (S : nat → v3 → Prop) (p : v3) : Prop := ∃ k, S k p.
(** The distance to the nearest section hit by the ray, or infinity. *)
Definition first_in (inf : R) (S : nat → v3 → Prop) (p d : v3) (D : R) : Prop :=
  (D < inf ∧ enters (any_of S) p d D) ∨ (D = inf ∧ avoids (any_of S) p d).
(** The ray stays in the sections, or on the seams between them, until [E] and then leaves all of them; the answer falls short
    of [E] by less than half a tolerance. *)
Definition last_out (zs : list R) (S : nat → v3 → Prop) (p d : v3) (r : R) : Prop :=
  ∃ E, r <= E < r + 5 / 10 * kTolerance ∧ (∀ u, 0 < u < E → any_of S (along p d u) ∨ vz (along p d u) ∈ zs) ∧
    gone (any_of S) p d E.
(** The heights go strictly up. *)
Definition ascending (l : list plane) : Prop := ∀ a b, adjacent l a b → pl_z a < pl_z b.
Definition convex2 (W : R → R → Prop) : Prop :=
  ∀ x y x' y' u, W x y → W x' y' → 0 <= u <= 1 → W ((1 - u) * x + u * x') ((1 - u) * y + u * y').
(** The volume between neighbouring planes, summed up. *)
Fixpoint stacked_volume (phi : R) (l : list plane) : R :=
  match l with
  | a :: (b :: _) as rest =>
    (pl_z b - pl_z a) / 2 * phi / 3 * (pl_rmax a * pl_rmax a + pl_rmax b * pl_rmax b + pl_rmax a * pl_rmax b - pl_rmin a * pl_rmin a - pl_rmin b * pl_rmin b - pl_rmin a * pl_rmin b)
    + stacked_volume phi rest
  | _ => 0
  end.
