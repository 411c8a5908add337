(** Vocabulary for the navigation table and state properties. *)
From stdpp Require Import list option gmap fin_maps.
From Coq Require Import NArith ZArith.
From Verif Require Import NavTableModel.
Local Open Scope N_scope.

Section Spec.
Context {T : Type} (G : geo T).

(** The hierarchy is acyclic: [rank] decreases from mother to daughter. *)
Definition acyclic (rank : N → nat) : Prop := ∀ p d, d ∈ g_dau G p → (rank d < rank p)%nat.
(** The child id of a placed volume is its position among its mother's daughters
    (LogicalVolume::PlaceDaughter, LogicalVolume.cpp:140-147). *)
Definition child_ids : Prop := ∀ p k d, g_dau G p !! k = Some d → g_child G d = N.of_nat k.
(** Fewer than 65535 daughters everywhere (assert of NavIndexTable.cpp:15). *)
Definition few_daughters : Prop := ∀ p, N.of_nat (length (g_dau G p)) < 65535.

(** Placement paths below [world], innermost volume first. [] is "outside". *)
Inductive is_path (world : N) : list N → Prop :=
| path_out : is_path world []
| path_world : is_path world [world]
| path_down v d l : is_path world (v :: l) → d ∈ g_dau G v → is_path world (d :: v :: l).

(** No path has more than 255 volumes (assert of NavIndexTable.cpp:58). *)
Definition shallow (world : N) : Prop := ∀ l, is_path world l → (length l ≤ 255)%nat.

(** A placement hierarchy below [world] that the table can hold; [fuel] bounds its depth. *)
Record hierarchy (world : N) (rank : N → nat) (fuel : nat) : Prop := Hierarchy {
  h_acyclic : acyclic rank;
  h_child : child_ids;
  h_few : few_daughters;
  h_shallow : shallow world;
  h_fuel : (rank world < fuel)%nat }.
(** The index reached by pushing the volumes of a path one after another from outside. *)
Fixpoint path_index (t : ntab T) (l : list N) : option N :=
  match l with
  | [] => Some 0
  | d :: l' => c ← path_index t l'; push_impl G t c d
  end.

(** The plain-stack meaning of a history; [None] for an illegal push. *)
Definition push_legal (world : N) (l : list N) (v : N) : bool :=
  match l with [] => v =? world | p :: _ => bool_decide (v ∈ g_dau G p) end.
Record absst := Abs { ab_path : list N; ab_last : list N; ab_bnd : bool }.
Definition abs_new := Abs [] [] false.
Definition abs_step (world : N) (s : absst) (o : nop) : option absst :=
  match o with
  | NPush v => if push_legal world (ab_path s) v then Some (Abs (v :: ab_path s) (ab_last s) (ab_bnd s)) else None
  | NPop => Some (Abs (tail (ab_path s)) (ab_last s) (ab_bnd s))
  | NClear => Some abs_new
  | NSetLast => Some (Abs (ab_path s) (ab_path s) (ab_bnd s))
  | NSetBoundary b => Some (Abs (ab_path s) (ab_last s) b)
  end.
Fixpoint abs_run (world : N) (s : absst) (os : list nop) : option absst :=
  match os with
  | [] => Some s
  | o :: os' => s' ← abs_step world s o; abs_run world s' os'
  end.
(** Volume at level [i] of a path (0 = outermost), null beyond either end. *)
Definition vol_at (l : list N) (i : Z) : option N :=
  if (0 <=? i)%Z then rev l !! Z.to_nat i else None.
(** Daughter positions along a path, outermost first, starting with 0 for the world. *)
Fixpoint positions (l : list N) : list N :=
  match l with
  | [] => []
  | [_] => [0]
  | d :: l' => positions l' ++ [g_child G d]
  end.

(** The local point of a global point: the placement transformations of the path are
    applied one after another, outermost first, without the world's own. *)
Definition local_point {P} (act : T → P → P) (l : list N) (p : P) : P :=
  foldr (λ d q, act (g_tr G d) q) p (take (length l - 1) l).

End Spec.

(** Number of levels two outermost-first paths share. *)
Fixpoint common (a b : list N) : nat :=
  match a, b with
  | x :: a', y :: b' => if x =? y then S (common a' b') else O
  | _, _ => O
  end.

(** What is needed of the transformations: [ok] ones act on points; the default
    constructor is neutral, MultiplyFromRight composes, Set restores a stored
    transformation, and one without flags is neutral. *)
Record tops_ok {T P} (TO : tops T) (act : T → P → P) (ok : T → Prop) : Prop := {
  ok_one : ok (t_one TO);
  ok_mul : ∀ a b, ok a → ok b → ok (t_mul TO a b);
  ok_set : ∀ a, ok a → ok (t_set TO a (t_hast TO a) (t_hasr TO a));
  act_one : ∀ p, act (t_one TO) p = p;
  act_mul : ∀ a b p, ok a → ok b → act (t_mul TO a b) p = act b (act a p);
  act_set : ∀ a p, ok a → act (t_set TO a (t_hast TO a) (t_hasr TO a)) p = act a p;
  act_no_flags : ∀ a p, ok a → t_hast TO a = false → t_hasr TO a = false → act a p = p }.
