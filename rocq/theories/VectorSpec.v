(** Vocabulary for the Vector properties: operations on mathematical sequences. *)
From stdpp Require Import list option.
From Verif Require Import VectorModel.
Local Open Scope nat_scope.

Section Spec.
Context {A : Type}.

(** What each operation means for a sequence; [None]: the caller breaks the
    interface (index out of range). *)
Definition seq_step (l : list A) (o : vop A) : option (list A) :=
  match o with
  | VPush x => Some (l ++ [x])
  | VReserve _ => Some l
  | VResize n x => Some (take n l ++ replicate (n - length l) x)
  | VClear => Some []
  | VErase i => if decide (i < length l) then Some (take i l ++ drop (S i) l) else None
  | VSet i x => if decide (i < length l) then Some (<[i:=x]> l) else None
  end.
Fixpoint seq_run (l : list A) (os : list (vop A)) : option (list A) :=
  match os with
  | [] => Some l
  | o :: os' => l' ← seq_step l o; seq_run l' os'
  end.

(** The vector, observed through size() and operator[], is the sequence [l]. *)
Definition shows (v : vec A) (l : list A) : Prop :=
  v_size v = length l ∧ ∀ i, i < length l → get v i = l !! i.

(** Well-formed vector: the size fits the buffer, which is as large as claimed. *)
Definition vwf (v : vec A) : Prop := v_size v ≤ v_mem v ∧ v_mem v = length (v_data v).
End Spec.
