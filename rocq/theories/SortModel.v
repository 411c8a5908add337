(** Model of the hit list sort: VecGeom/navigation/HybridNavigator2.h:53-65 (the same code in
    VecGeom/navigation/SimpleABBoxNavigator.h:40-51 and VecGeom/navigation/HybridSafetyEstimator.h:42-54).
    [lt x y] is x.second < y.second; the index is an unsigned short, the hole a short.
    [None] is an access outside the array. *)
From stdpp Require Import list option.
From Coq Require Import ZArith.

Section Sort.
Context {T : Type} (lt : T → T → bool).
(* HybridNavigator2.h:61, 63: arr[i] = v *)
Definition store (arr : list T) (i : nat) (v : T) : option (list T) := if decide (i < length arr)%nat then Some (<[i := v]> arr) else None.
(* HybridNavigator2.h:60-63: the inner loop and the final write, from position [hole] *)
Fixpoint sift (arr : list T) (hole : nat) (value : T) : option (list T) :=
  match hole with
  | 0 => store arr 0 value
  | S h => prev ← arr !! h;
      if lt value prev then arr' ← store arr hole prev; sift arr' h value else store arr hole value
  end.
(* HybridNavigator2.h:58: short hole = i *)
Definition to_short (i : Z) : Z := if (i <? 32768)%Z then i else (i - 65536)%Z.
(* HybridNavigator2.h:56-64; ++i wraps at 65536 *)
Fixpoint sort_loop (fuel : nat) (i n : Z) (arr : list T) : option (list T) :=
  match fuel with
  | 0 => None
  | S f =>
    if (i <? n)%Z then
      value ← arr !! Z.to_nat i;
      let hole := to_short i in
      if (hole <? 0)%Z then None else
      arr' ← sift arr (Z.to_nat hole) value; sort_loop f ((i + 1) mod 65536)%Z n arr'
    else Some arr
  end.
(* HybridNavigator2.h:53-65 *)
Definition insertionsort (arr : list T) (n : nat) : option (list T) := sort_loop (S n) 1 (Z.of_nat n) arr.
End Sort.
