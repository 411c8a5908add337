(** Vocabulary for point location. *)
From stdpp Require Import list option.
From Coq Require Import NArith.
From Verif Require Import LocateModel.

Section Spec.
Context {pt : Type} (G : geom pt).
(** Going down from [v] through daughters in [ok] that contain the point; [q] is the point in the frame of the last. *)
Inductive chain (ok : N → Prop) : N → pt → list N → N → pt → Prop :=
| chain_nil v p : chain ok v p [] v p
| chain_cons v p d ds w q : d ∈ dau G v → ok d → cont G d (to_local G d p) = true →
    chain ok d (to_local G d p) ds w q → chain ok v p (d :: ds) w q.
(** No daughter in [ok] contains the point. *)
Definition deepest (ok : N → Prop) (w : N) (q : pt) : Prop :=
  ∀ d, d ∈ dau G w → ok d → cont G d (to_local G d q) = false.
(** The state [path'] (current volume first) is [v :: path] continued to the deepest volume. *)
Definition located (ok : N → Prop) (v : N) (p : pt) (path path' : list N) : Prop :=
  ∃ ds w q, path' = rev ds ++ v :: path ∧ chain ok v p ds w q ∧ deepest ok w q.
Definition any (v : N) : Prop := True.
Definition not_excl (e : option N) (v : N) : Prop := Some v ≠ e.

(** What a level locator must do on one level. *)
Definition locator_ok (L : locator pt) (v : N) : Prop :=
  (∀ p ds q, l_state L v p = Some (ds, q) → ds ≠ [] ∧ ∃ w, chain any v p ds w q) ∧
  (∀ p, l_state L v p = None → deepest any v p) ∧
  (∀ e p d q, l_excl L v e p = Some (d, q) → d ∈ dau G v ∧ Some d ≠ e ∧ q = to_local G d p ∧ cont G d q = true) ∧
  (∀ e p, l_excl L v e p = None → deepest (not_excl e) v p).
Definition locators_ok : Prop := ∀ v L, loc G v = Some L → locator_ok L v.
(** Every volume with daughters has a locator. *)
Definition all_locators : Prop := ∀ v, dau G v ≠ [] → is_Some (loc G v).
(** The hierarchy has finite height [h]. *)
Definition height (h : N → nat) : Prop := ∀ v d, d ∈ dau G v → (h d < h v)%nat.

(** Each volume of the stack is a daughter of the next; the last one is [world]. *)
Fixpoint nested (world : N) (path : list N) : Prop :=
  match path with
  | [] => False
  | v :: r => match r with [] => v = world | m :: _ => v ∈ dau G m ∧ nested world r end
  end.
(** The point [g] of the frame of the world, in the frame of the current volume. *)
Fixpoint local (path : list N) (g : pt) : pt :=
  match path with
  | [] => g
  | v :: r => match r with [] => g | _ => to_local G v (local r g) end
  end.
(** Geometry without overlaps. *)
Definition sane : Prop :=
  (∀ v p, to_mother G v (to_local G v p) = p) ∧
  (∀ v d d' p, d ∈ dau G v → d' ∈ dau G v → cont G d (to_local G d p) = true → cont G d' (to_local G d' p) = true → d = d') ∧
  (∀ v d p, d ∈ dau G v → cont G d (to_local G d p) = true → cont G v p = true).
(** An assembly is what its daughters are; [bbox] encloses them. *)
Definition assemblies (bbox : N → pt → bool) : Prop :=
  ∀ a p, asm G a = true →
    (cont G a p = true ↔ bbox a p = true ∧ ∃ d, d ∈ dau G a ∧ cont G d (to_local G d p) = true).
End Spec.
