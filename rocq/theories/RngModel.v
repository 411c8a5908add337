(** The random number generator: VecGeom/base/RNG.h.
    The engine (std::mt19937 with std::uniform_real_distribution) is any stream of numbers: the n-th call of GetUniform
    returns [u n].  Exact real arithmetic; loops run with fuel, [None] is a loop that has not ended. *)
From Coq Require Import Reals.
From stdpp Require Import base option list.
From Verif Require Import Real3.
Local Open Scope R_scope.

(** RNG.h:57-60: what GetUniform may return *)
Definition stream := nat -> R.
(** RNG.h:127-129: the value and the next call *)
Definition uniform (u : stream) (n : nat) (lo hi : R) : R * nat := (lo + (hi - lo) * u n, Datatypes.S n).
(** RNG.h:170-177 *)
Fixpoint uniform_array (u : stream) (n : nat) (size : nat) (lo hi : R) : list R * nat :=
  match size with
  | O => ([], n)
  | Datatypes.S size =>
    let x := lo + (hi - lo) * u n in
    let '(rest, n') := uniform_array u (Datatypes.S n) size lo hi in (x :: rest, n')
  end.
(** RNG.h:138-141, [fuel] turns of the loop at most *)
Fixpoint poisson_loop (fuel : nat) (u : stream) (n : nat) (target p : R) (k : nat) : option (nat * nat) :=
  match fuel with
  | O => None
  | Datatypes.S fuel =>
    if rltb p target then poisson_loop fuel u (Datatypes.S n) target (p * u n) (Datatypes.S k) else Some (k, n)
  end.
(** RNG.h:131-143: the answer and the next call *)
Definition poisson (fuel : nat) (u : stream) (n : nat) (lambda : R) : option (nat * nat) :=
  poisson_loop fuel u (Datatypes.S n) (exp (- lambda)) (u n) 0.
(** RNG.h:150-164, [fuel] turns at most.  At w = 0 the quotient is infinity by zero: the answer is not a number ([None] inside). *)
Fixpoint gauss (fuel : nat) (u : stream) (n : nat) (ave sig : R) : option (option R * nat) :=
  match fuel with
  | O => None
  | Datatypes.S fuel =>
    let x1 := 2 * u n - 1 in
    let x2 := 2 * u (Datatypes.S n) - 1 in
    let w := x1 * x1 + x2 * x2 in
    if rgeb w 1 then gauss fuel u (n + 2) ave sig
    else Some (if reqb w 0 then None else Some (ave + x1 * R_sqrt.sqrt ((- (2) * ln w) / w) * sig), (n + 2)%nat)
  end.
