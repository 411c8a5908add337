(** Model of one step of a navigator: VecGeom/navigation/VNavigator.h (the same code serves
    VecGeom/navigation/BVHNavigator.h, with other location functions).  Points, directions,
    transformations, shapes and the search among the daughters are parameters; locations are
    those of LocateModel.v.  A path has the current volume first.  [None] is a null dereference. *)
From Coq Require Import Reals NArith.
From stdpp Require Import list option.
From Verif Require Import Real3 LocateModel.

(* NavStateIndex.h:35-37: index, last exited index and boundary flag, as paths *)
Record nstate := NState { s_path : list N; s_last : list N; s_bnd : bool }.

Section Step.
Context {pt dr : Type} (G : geom pt).
Variables (inf tol : R).                              (* kInfLength, kTolerance *)
Variable frame : list N → pt → dr → pt * dr.          (* DoGlobalToLocalTransformation *)
Variable to_out : N → pt → dr → R → R.                (* DistanceToOut(point, dir, step_max) *)
Variable move : pt → dr → R → pt.                     (* point + t * dir *)
Variable search : N → option N → pt → dr → R → option (R * option N).  (* CheckDaughterIntersections: volume, last exited, ray, step *)
Variable locate_diff : pt → list N → option (option N * list N).       (* RelocatePointFromPathForceDifferent *)
Variable locate_in : N → pt → list N → option (option N * list N).     (* LocateGlobalPoint(vol, point, path, false) *)
Variable estimate : N → pt → option R.                (* ComputeSafetyForLocalPoint *)

(* VNavigator.h:206-217 *)
Definition mother_distance (v : N) (p : pt) (d : dr) (limit : R) : R :=
  let step := to_out v p d limit in if rltb step 0 then 0%R else step.
(* VNavigator.h:288-290, 179: Pop while the top is an assembly *)
Fixpoint pop_assemblies (path : list N) : option (list N) :=
  match path with
  | [] => None
  | v :: r => if asm G v then pop_assemblies r else Some path
  end.
(* VNavigator.h:158-204: step, state and doneafterthisstep *)
Definition prepare_out (s : nstate) (geom_step limit : R) (hit : option N) : option (R * nstate * bool) :=
  if reqb geom_step inf && rgtb limit 0 then
    path ← pop_assemblies (tail (s_path s)); Some (tol, NState path (s_last s) true, true)
  else if rgtb geom_step limit then Some (limit, NState (s_path s) (s_last s) false, false)
  else Some (if rltb geom_step 0 then 0%R else geom_step,
             NState (match hit with Some v => v :: s_path s | None => s_path s end) (s_path s) true, false).
(* VNavigator.h:261-270, 308-317, 367-373, 390-408: distances in the frame of the current volume *)
Definition find_step (s : nstate) (p : pt) (d : dr) (limit : R) : option (R * option N) :=
  v ← head (s_path s);
  let step := mother_distance v p d limit in
  match dau G v with [] => Some (step, None) | _ => search v (head (s_last s)) p d step end.
(* VNavigator.h:296-332 *)
Definition compute_step (s : nstate) (gp : pt) (gd : dr) (limit : R) : option (R * nstate) :=
  let '(p, d) := frame (s_path s) gp gd in
  '(step, hit) ← find_step s p d limit;
  '(step, out, _) ← prepare_out s step limit hit; Some (step, out).
(* VNavigator.h:135-142 *)
Definition behind (p : pt) (d : dr) (step : R) : pt := move p d (step + 1 / 1000000).
(* VNavigator.h:428-449, BVHNavigator.h:79-93 *)
Definition relocate_step (p : pt) (s out : nstate) : option nstate :=
  if bool_decide (head (s_path out) = head (s_path s)) then
    '(_, path) ← locate_diff p (s_path out); Some (NState path (s_last out) (s_bnd out))
  else
    v ← head (s_path out);
    '(_, path) ← locate_in v (to_local G v p) (tail (s_path out)); Some (NState path (s_last out) (s_bnd out)).
(* VNavigator.h:247-294 *)
Definition compute_propagated (s : nstate) (gp : pt) (gd : dr) (limit : R) : option (R * nstate) :=
  let '(p, d) := frame (s_path s) gp gd in
  '(step, hit) ← find_step s p d limit;
  '(step, out, fin) ← prepare_out s step limit hit;
  if fin : bool then Some (step, out) else
  if negb (s_bnd out) then Some (step, out) else
  out ← relocate_step (behind p d step) s out;
  match s_path out with
  | [] => Some (step, out)
  | _ => path ← pop_assemblies (s_path out); Some (step, NState path (s_last out) (s_bnd out))
  end.
(* VNavigator.h:380-422; the safety is returned as well *)
Definition compute_safety_propagated (s : nstate) (gp : pt) (gd : dr) (limit : R) (calc : bool) : option (R * R * nstate) :=
  let '(p, d) := frame (s_path s) gp gd in
  v ← head (s_path s);
  safety ← (if calc then estimate v p else Some 0%R);
  '(step, hit) ← find_step s p d limit;
  '(step, out, fin) ← prepare_out s step limit hit;
  if fin : bool then Some (step, safety, out) else
  if negb (s_bnd out) then Some (step, safety, out) else
  out ← relocate_step (behind p d step) s out; Some (step, safety, out).
(* VNavigator.h:334-376; [safety] is the value passed in; step, safety, modified in_state *)
Definition compute_and_safety (s : nstate) (gp : pt) (gd : dr) (limit : R) (calc : bool) (safety : R) (indicate : bool) : option (R * R * nstate) :=
  let '(p, d) := frame (s_path s) gp gd in
  v ← head (s_path s);
  safety ← (if calc then estimate v p else Some safety);
  '(step, hit) ← (if calc && rleb limit safety then Some (limit, None) else find_step s p d limit);
  Some (Rmin step limit, safety,
        match hit with Some w => if indicate then NState (w :: s_path s) (s_last s) (s_bnd s) else s | None => s end).
End Step.
