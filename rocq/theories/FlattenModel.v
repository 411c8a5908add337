(** Model of flattening Boolean trees: BooleanHelper of source/UnplacedBooleanVolume.cpp.
    Unplaced volumes are objects of a heap, since Flatten overwrites operands in place and operands may be shared.
    Logical and placed volumes between them carry the transformation only.  Recursion takes [fuel]; [None] is running
    out of it or an access through a null or dangling pointer.  Bounding boxes and Close are in MultiUnionModel. *)
From Coq Require Import Reals.
From stdpp Require Import list option gmap fin_maps.
From Verif Require Import Real3 TransModel BoolModel.
Import stdpp.list.

(** An operand or component: transformation and unplaced volume. *)
Notation child := (trans * N)%type.
(* VecGeom/volumes/BooleanStruct.h:20-22, VecGeom/volumes/MultiUnionStruct.h:26; any other volume is known by its points *)
Inductive volume := VLeaf (contains : v3 → bool) | VBool (op : bop) (l r : child) | VMulti (cs : list child).
Notation heap := (gmap N volume).

(* UnplacedBooleanVolume.cpp:172-189: a null pointer for other volumes *)
Definition boolean_struct (v : volume) : option (bop * child * child) :=
  match v with VBool op l r => Some (op, l, r) | _ => None end.
(* UnplacedBooleanVolume.cpp:192-204: the counters nunion, nintersection, nsubtraction *)
Fixpoint count_nodes (fuel : nat) (h : heap) (u : N) (c : nat * nat * nat) : option (nat * nat * nat) :=
  match fuel with
  | 0 => None
  | S fuel =>
    v ← h !! u;
    match boolean_struct v with
    | None => Some c
    | Some (op, l, r) =>
      let '(nu, ni, ns) := c in
      let c1 := match op with kUnion => (S nu, ni, ns) | kIntersection => (nu, S ni, ns) | kSubtraction => (nu, ni, S ns) end in
      c2 ← count_nodes fuel h l.2 c1; count_nodes fuel h r.2 c2
    end
  end.

(* UnplacedBooleanVolume.cpp:218 *)
Definition is_union (op : bop) : bool := match op with kUnion => true | _ => false end.
(* VecGeom/volumes/UnplacedMultiUnion.h:41-46 *)
Definition add_node (cs : list child) (t : trans) (u : N) : list child := cs ++ [(t, u)].
(** Result: the heap, the multi-union under construction if there is one, the new volume returned. *)
Definition flattened : Type := heap * option (list child) * option N.
(* UnplacedBooleanVolume.cpp:206-259; a multi-union made here enters the heap when it is closed, nobody sees it before *)
Fixpoint flatten (fuel : nat) (min_unions : nat) (h : heap) (u : N) (trbase : option trans) (munion : option (list child)) : option flattened :=
  match fuel with
  | 0 => None
  | S fuel =>
    '(nunion, _, _) ← count_nodes (S fuel) h u (0, 0, 0);
    if (nunion <? min_unions)%nat then
      match munion with
      | Some cs => t ← trbase; Some (h, Some (add_node cs t u), None)
      | None => Some (h, None, None)
      end
    else
      v ← h !! u;
      '(op, l, r) ← boolean_struct v;
      if is_union op then
        let cs := default [] munion in
        let base := default tr_one trbase in
        '(h1, m1, _) ← flatten fuel min_unions h l.2 (Some (multiply base l.1)) (Some cs);
        v1 ← h1 !! u;
        '(_, _, r1) ← boolean_struct v1;
        '(h2, m2, _) ← flatten fuel min_unions h1 r1.2 (Some (multiply base r1.1)) m1;
        match munion with
        | Some _ => Some (h2, m2, None)
        | None => cs2 ← m2; let m := fresh (dom h2) in Some (<[m := VMulti cs2]> h2, None, Some m)
        end
      else
        '(h1, _, lb) ← flatten fuel min_unions h l.2 None None;
        v1 ← h1 !! u;
        '(_, l1, r1) ← boolean_struct v1;
        let h2 := match lb with Some m => <[u := VBool op (l1.1, m) r1]> h1 | None => h1 end in
        v2 ← h2 !! u;
        '(_, _, r2) ← boolean_struct v2;
        '(h3, _, rb) ← flatten fuel min_unions h2 r2.2 None None;
        v3 ← h3 !! u;
        '(_, l3, r3) ← boolean_struct v3;
        let h4 := match rb with Some m => <[u := VBool op l3 (r3.1, m)]> h3 | None => h3 end in
        match munion with
        | Some cs => t ← trbase; Some (h4, Some (add_node cs t u), None)
        | None => Some (h4, None, None)
        end
  end.
