(** Where a ray meets the next boundary, independent of the navigator. *)
From Coq Require Import Reals NArith.
From stdpp Require Import list option.
From Verif Require Import Real3 LocateModel LocateSpec SearchSpec StepModel.
Local Open Scope R_scope.

Section Spec.
Context {pt dr : Type} (G : geom pt).
(** DistanceToOut asked with a limit: exact up to it, otherwise above it, and never infinite;
    values below 0 (the point is not in the volume) count as 0. *)
Definition exit_ok (inf : R) (Dout : N → pt → dr → R) (to_out : N → pt → dr → R → R) : Prop :=
  ∀ v p d limit, to_out v p d limit < inf ∧ (Dout v p d <= limit → Rmax 0 (to_out v p d limit) = Dout v p d) ∧ (limit < Dout v p d → limit < to_out v p d limit).
(** The search among the daughters finds the nearest one (C33). *)
Definition search_ok (Din : N → pt → dr → R) (search : N → option N → pt → dr → R → option (R * option N)) : Prop :=
  ∀ v last p d step, 0 <= step → ∃ r, search v last p d step = Some r ∧ nearest (dau G v) (λ w, Din w p d) last step None r.
(** [b] is the distance to the first boundary from volume [v]; [hit] the daughter entered there. *)
Definition first_boundary (Dout Din : N → pt → dr → R) (last : option N) (v : N) (p : pt) (d : dr) (b : R) (hit : option N) : Prop :=
  nearest (dau G v) (λ w, Din w p d) last (Dout v p d) None (b, hit).
(** The geometry without its trailing assemblies. *)
Fixpoint trimmed (path : list N) : list N :=
  match path with [] => [] | v :: r => if asm G v then trimmed r else path end.
End Spec.
