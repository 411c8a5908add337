(** Vocabulary for NavStatePath and for comparing navigation states. *)
From stdpp Require Import list option.
From Coq Require Import NArith ZArith.
From Verif Require Import NavTableModel NavPathModel.
Local Open Scope N_scope.

(** The plain-list meaning of a history (innermost volume first). *)
Definition list_step (l : list N) (o : nop) : list N :=
  match o with NPush v => v :: l | NPop => tail l | NClear => [] | _ => l end.
Definition bnd_step (b : bool) (o : nop) : bool :=
  match o with NClear => false | NSetBoundary b' => b' | _ => b end.
(** The history never holds more than [d] volumes. *)
Fixpoint depth_ok (d : nat) (l : list N) (os : list nop) : Prop :=
  match os with
  | [] => True
  | o :: os' => (length (list_step l o) ≤ d)%nat ∧ depth_ok d (list_step l o) os'
  end.

(** Meaning of the moves on a path (innermost volume first). *)
Definition do_move (l : list N) (m : move) : list N :=
  match m, l with
  | MUp, _ => tail l
  | MHoriz d, v :: l' => Z.to_N (Z.of_N v + d) :: l'
  | MHoriz d, [] => []
  | MDown v, _ => v :: l
  end.
