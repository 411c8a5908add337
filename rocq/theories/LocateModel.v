(** Model of point location through the hierarchy: VecGeom/navigation/GlobalLocator.h,
    VecGeom/navigation/BVHNavigator.h, VecGeom/navigation/SimpleLevelLocator.h,
    VecGeom/navigation/SimpleABBoxLevelLocator.h, VecGeom/volumes/PlacedAssembly.h.
    Placed volumes are numbers; a logical volume is represented by any of its placements.  Points,
    transformations and shapes are abstract.  A navigation state is the stack of its volumes, the
    current one first (the operations on the real states are in NavTableModel.v, NavPathModel.v).
    Loops get fuel; [None] is running out of it, or a null dereference. *)
From stdpp Require Import list option.
From Coq Require Import NArith.

Section Geo.
Context {pt : Type}.
(** Level locators.  [l_state]: the volumes pushed, first one first, and the point in the frame
    of the last.  [l_excl]: the daughter found, leaving out one volume. *)
Record locator := Locator {
  l_state : N → pt → option (list N * pt);
  l_excl : N → option N → pt → option (N * pt) }.
Record geom := Geom {
  dau : N → list N;               (* LogicalVolume.h:117 GetDaughtersp *)
  cont : N → pt → bool;           (* PlacedVolume.h:274 UnplacedContains: point in the frame of the volume *)
  to_local : N → pt → pt;         (* Transformation3D::Transform of the placement *)
  to_mother : N → pt → pt;        (* Transformation3D::InverseTransform *)
  asm : N → bool;                 (* UnplacedVolume.h:191 IsAssembly *)
  loc : N → option locator }.     (* LogicalVolume.h:146 GetLevelLocator *)
Variable G : geom.

(* PlacedVolume.h:270: Contains(point, localPoint) *)
Definition pcont (v : N) (p : pt) : option pt := let q := to_local G v p in if cont G v q then Some q else None.
(* SimpleLevelLocator.h:122-141 with CheckCandidateVol 42-51; GlobalLocator.h:64-77, 116-131 *)
Fixpoint first_cont (excl : option N) (ds : list N) (p : pt) : option (N * pt) :=
  match ds with
  | [] => None
  | d :: r => if bool_decide (Some d = excl) then first_cont excl r p else
      match pcont d p with Some q => Some (d, q) | None => first_cont excl r p end
  end.
(* SimpleLevelLocator.h:110-200 with IsAssemblyAware = false *)
Definition simple_locator : locator :=
  Locator (λ v p, match first_cont None (dau G v) p with Some (d, q) => Some ([d], q) | None => None end)
          (λ v e p, first_cont e (dau G v) p).
(* SimpleABBoxLevelLocator.h:36-72; [inbox i] is the box test for daughter [i]; one lane *)
Fixpoint abbox_cont (inbox : nat → pt → bool) (i : nat) (excl : option N) (ds : list N) (p : pt) : option (N * pt) :=
  match ds with
  | [] => None
  | d :: r =>
    if inbox i p && negb (bool_decide (Some d = excl)) then
      match pcont d p with Some q => Some (d, q) | None => abbox_cont inbox (S i) excl r p end
    else abbox_cont inbox (S i) excl r p
  end.
(* SimpleABBoxLevelLocator.h:117-148 *)
Definition abbox_locator (inbox : N → nat → pt → bool) : locator :=
  Locator (λ v p, match abbox_cont (inbox v) 0 None (dau G v) p with Some (d, q) => Some ([d], q) | None => None end)
          (λ v e p, abbox_cont (inbox v) 0 e (dau G v) p).

(** The assembly aware locator.  [bbox a] is the box test of UnplacedAssembly.h:113-115. *)
(* SimpleLevelLocator.h:21-53, 122-141 with IsAssemblyAware and ModifyState; PlacedAssembly.h:181-189; UnplacedAssembly.h:109-118 *)
Fixpoint asm_loop (bbox : N → pt → bool) (below : N → pt → option (list N * pt)) (ds : list N) (p : pt) : option (list N * pt) :=
  match ds with
  | [] => None
  | d :: r =>
    if asm G d then
      let q := to_local G d p in
      match (if bbox d q then below d q else None) with
      | Some (l, q') => Some (d :: l, q')
      | None => asm_loop bbox below r p
      end
    else match pcont d p with Some q => Some ([d], q) | None => asm_loop bbox below r p end
  end.
(** all volumes using this locator; the recursion goes through the assemblies *)
Fixpoint asm_state (bbox : N → pt → bool) (fuel : nat) (v : N) (p : pt) : option (list N * pt) :=
  match fuel with
  | 0 => None
  | S f => asm_loop bbox (asm_state bbox f) (dau G v) p
  end.
Definition asm_locator (bbox : N → pt → bool) (fuel : nat) : locator :=
  Locator (asm_state bbox fuel) (λ v e p, first_cont e (dau G v) p).

(** * GlobalLocator *)
(* GlobalLocator.h:50-79: the loop.  [lv] is the volume whose daughters are searched, the top of the path *)
Fixpoint down (fuel : nat) (lv : N) (cur : pt) (path : list N) : option (list N) :=
  match fuel with
  | 0 => None
  | S f =>
    match dau G lv with
    | [] => Some path
    | _ =>
      match loc G lv with
      | Some L =>
        match l_state L lv cur with
        | Some (ds, q) => let path' := rev ds ++ path in t ← head path'; down f t q path'
        | None => Some path
        end
      | None =>
        match first_cont None (dau G lv) cur with
        | Some (d, _) => Some (d :: path)
        | None => Some path
        end
      end
    end
  end.
(* GlobalLocator.h:35-82: returned volume and path; [None] inside is a null pointer *)
Definition locate_global (fuel : nat) (vol : N) (p : pt) (path : list N) (top : bool) : option (option N * list N) :=
  if top && negb (cont G vol p) then Some (None, path)
  else path' ← down fuel vol p (vol :: path); Some (head path', path').
(* GlobalLocator.h:103-132: [lv] is not updated by the branch without locator, [ds] is *)
Fixpoint down_excl (fuel : nat) (excl : option N) (lv : N) (ds : list N) (cand : N) (cur : pt) (path : list N) : option (N * list N) :=
  match fuel with
  | 0 => None
  | S f =>
    match ds with
    | [] => Some (cand, path)
    | _ =>
      match loc G lv with
      | Some L =>
        match l_excl L lv excl cur with
        | Some (d, q) => down_excl f excl d (dau G d) d q (d :: path)
        | None => Some (cand, path)
        end
      | None =>
        match first_cont excl ds cur with
        | Some (d, q) => down_excl f excl lv (dau G d) d q (d :: path)
        | None => Some (cand, path)
        end
      end
    end
  end.
(* GlobalLocator.h:88-135 *)
Definition locate_global_excl (fuel : nat) (vol : N) (excl : option N) (p : pt) (path : list N) (top : bool) : option (option N * list N) :=
  if top && negb (cont G vol p) then Some (None, path)
  else '(c, path') ← down_excl fuel excl vol (dau G vol) vol p (vol :: path); Some (Some c, path').
(* GlobalLocator.h:148-158 and 182-192: pop until a volume holds the point *)
Fixpoint up (stop : N → pt → bool) (path : list N) (p : pt) : list N * pt :=
  match path with
  | [] => ([], p)
  | v :: r => if stop v p then (path, p) else up stop r (to_mother G v p)
  end.
(* GlobalLocator.h:139-166 *)
Definition relocate (fuel : nat) (p : pt) (path : list N) : option (option N * list N) :=
  match up (λ v q, negb (asm G v || negb (cont G v q))) path p with
  | (v :: r, q) => locate_global fuel v q r false
  | ([], _) => Some (None, [])
  end.
(* GlobalLocator.h:171-200 *)
Definition relocate_different (fuel : nat) (p : pt) (path : list N) : option (option N * list N) :=
  match up (λ v q, negb (bool_decide (Some v = head path) || asm G v || negb (cont G v q))) path p with
  | (v :: r, q) => locate_global_excl fuel v (head path) q r false
  | ([], _) => Some (None, [])
  end.
(* GlobalLocator.h:204-211 *)
Definition has_same_path (fuel : nat) (p : pt) (path : list N) : option (bool * list N) :=
  '(_, path') ← relocate fuel p path; Some (bool_decide (path = path'), path').

(** * BVHNavigator *)
(* BVHNavigator.h:116-126 *)
Fixpoint down_bvh (fuel : nat) (excl : option N) (v : N) (cur : pt) (path : list N) : option (list N) :=
  match fuel with
  | 0 => None
  | S f =>
    match dau G v with
    | [] => Some path
    | _ => L ← loc G v;
      match l_excl L v excl cur with
      | Some (d, q) => down_bvh f None d q (d :: path)
      | None => Some path
      end
    end
  end.
(* BVHNavigator.h:103-129 *)
Definition bvh_locate_global (fuel : nat) (vol : N) (p : pt) (path : list N) (top : bool) (excl : option N) : option (option N * list N) :=
  if top && negb (cont G vol p) then Some (None, path)
  else path' ← down_bvh fuel excl vol p (vol :: path); Some (head path', path').
(* BVHNavigator.h:155-166 *)
Fixpoint down_bvh_excl (fuel : nat) (excl : option N) (v : N) (cur : pt) (path : list N) : option (N * list N) :=
  match fuel with
  | 0 => None
  | S f =>
    match dau G v with
    | [] => Some (v, path)
    | _ => L ← loc G v;
      match l_excl L v excl cur with
      | Some (d, q) => down_bvh_excl f excl d q (d :: path)
      | None => Some (v, path)
      end
    end
  end.
(* BVHNavigator.h:140-169 *)
Definition bvh_locate_global_excl (fuel : nat) (vol : N) (excl : option N) (p : pt) (path : list N) (top : bool) : option (option N * list N) :=
  if top && negb (cont G vol p) then Some (None, path)
  else '(c, path') ← down_bvh_excl fuel excl vol p (vol :: path); Some (Some c, path').
(* BVHNavigator.h:176-206 *)
Definition bvh_relocate_different (fuel : nat) (p : pt) (path : list N) : option (option N * list N) :=
  match up (λ v q, negb (bool_decide (Some v = head path) || asm G v || negb (cont G v q))) path p with
  | (v :: r, q) => bvh_locate_global_excl fuel v (head path) q r false
  | ([], _) => Some (None, [])
  end.
End Geo.
Arguments locator pt : clear implicits.
Arguments geom pt : clear implicits.
