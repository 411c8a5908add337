(** Vocabulary for the BitSet properties, independent of the model's helpers. *)
From stdpp Require Import list option.
From Coq Require Import NArith Arith.
From Verif Require Import BitSetModel.
Local Open Scope nat_scope.

(** The bit stored at position [i] of a byte array, bits of a byte numbered from
    the least significant one. *)
Definition raw_bit (d : list N) (i : nat) : bool :=
  match d !! (i / 8) with
  | Some b => N.testbit b (N.of_nat (i mod 8))
  | None => false
  end.

(** Number of positions that fit in the allocated bytes. *)
Definition capacity (s : bitset) : nat := 8 * length (bs_data s).

(** Well-formed: at least one byte, every byte is a byte, the nominal size fits. *)
Definition wf (s : bitset) : Prop :=
  0 < length (bs_data s) ∧ Forall (λ b, (b < 256)%N) (bs_data s) ∧ bs_nbits s ≤ capacity s.

(** No one-bits at positions beyond the nominal size. *)
Definition clean (s : bitset) : Prop :=
  ∀ i, bs_nbits s ≤ i → raw_bit (bs_data s) i = false.

(** The value most recently written to position [i] by the writes [ws] (pairs
    position/value) when only positions below [cap] can be written. *)
Definition last_written (cap : nat) (ws : list (nat * bool)) (i : nat) : bool :=
  if i <? cap then
    match List.find (λ w, fst w =? i) (rev ws) with
    | Some w => snd w
    | None => false
    end
  else false.

(** Number of positions in [from, to) for which [f] answers [Some true]. *)
Definition count_true (f : nat → option bool) (from upto : nat) : nat :=
  length (List.filter (λ i, match f i with Some true => true | _ => false end)
                      (seq from (upto - from))).

(** First / last position of a list of candidates where [f] answers [Some want],
    [dflt] if there is none. *)
Definition search (f : nat → option bool) (want : bool) (candidates : list nat) (dflt : nat) : nat :=
  match List.find (λ i, match f i with Some b => Bool.eqb b want | None => false end) candidates with
  | Some i => i
  | None => dflt
  end.

(** Operations that cannot put ones beyond the nominal size, on a set of capacity [cap]. *)
Definition tame (cap : nat) (o : bs_op) : Prop :=
  match o with
  | OpSet _ _ | OpRef _ _ | OpClear => True
  | OpResetAll v => v = false
  | OpAnd r => wf r
  | OpShr k => k < cap
  | _ => False
  end.
