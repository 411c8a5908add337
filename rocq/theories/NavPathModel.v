(** Model of NavStatePath and of the algorithms comparing two navigation states.
    VecGeom/navigation/NavStatePath.h, source/NavStatePath.cpp,
    VecGeom/base/VariableSizeObj.h, source/NavStateIndex.cpp (host code).

    Default configuration: VECGEOM_USE_INDEXEDNAVSTATES on (slots hold volume ids),
    VECGEOM_CACHED_TRANS off (CMakeLists.txt:181-182).  [p_vals] are the slots that
    physically belong to the object, [p_n] is the field fN; CopyTo can make them
    differ.  The result [None] stands for an access outside the object or for a null
    dereference.  Simplification: volume ids do not overflow NavStateIndex_t. *)
From stdpp Require Import list option gmap fin_maps.
From Coq Require Import NArith ZArith.
From Verif Require Import NavTableModel.
Local Open Scope N_scope.

Section NavPath.
Context {T : Type} (G : geo T) (TO : tops T).

(* NavStatePath.h:116-134 *)
Record nsp := Nsp { p_vals : list N; p_n : nat; p_cur : N; p_cache : Z; p_bnd : bool }.

(* NavStatePath.h:492-496 *)
Definition nsp_new (nvalues : nat) : nsp := Nsp (replicate nvalues 0) nvalues 0 (-1) false.
(* NavStatePath.h:211-215 *)
Definition nsp_make (maxlevel : nat) : nsp := nsp_new (maxlevel + 1).
(* VariableSizeObj.h:56-57 operator[] *)
Definition slot (s : nsp) (i : N) : option N := p_vals s !! N.to_nat i.
Definition set_slot (s : nsp) (i v : N) : option (list N) :=
  if (N.to_nat i <? length (p_vals s))%nat then Some (<[N.to_nat i := v]> (p_vals s)) else None.
(* NavStatePath.h:298: unsigned char *)
Definition nsp_max_level (s : nsp) : Z := (Z.of_nat (p_n s) - 1) mod 256.
(* NavStatePath.h:302 *)
Definition nsp_current_level (s : nsp) : N := p_cur s.
(* NavStatePath.h:440: unsigned char *)
Definition nsp_level (s : nsp) : N := (p_cur s + 255) mod 256.
(* NavStatePath.h:447 *)
Definition nsp_outside (s : nsp) : bool := negb (0 <? p_cur s).
(* NavStatePath.h:527-536 Push(VPlacedVolume const pointer), 555-564 PushIndexType; fCurrentLevel++ wraps *)
Definition nsp_push (s : nsp) (v : N) : option nsp :=
  vs ← set_slot s (p_cur s) v; Some (Nsp vs (p_n s) ((p_cur s + 1) mod 256) (p_cache s) (p_bnd s)).
(* NavStatePath.h:540-552 Push(unsigned short) *)
Definition nsp_push_child (s : nsp) (child : N) : option nsp :=
  if 0 <? p_cur s then
    top ← slot s (p_cur s - 1); v ← g_dau G top !! N.to_nat child; nsp_push s v
  else Some s.
(* NavStatePath.h:502-513 *)
Definition nsp_pop (s : nsp) : nsp :=
  if 0 <? p_cur s then Nsp (p_vals s) (p_n s) (p_cur s - 1) (-1) (p_bnd s) else s.
(* NavStatePath.h:516-524 *)
Definition nsp_clear (s : nsp) : nsp := Nsp (p_vals s) (p_n s) 0 (-1) false.
(* NavStatePath.h:461 *)
Definition nsp_set_boundary (s : nsp) (b : bool) : nsp := Nsp (p_vals s) (p_n s) (p_cur s) (p_cache s) b.
(* NavStatePath.h:567-570 *)
Definition nsp_top (s : nsp) : option (option N) :=
  if 0 <? p_cur s then v ← slot s (p_cur s - 1); Some (Some v) else Some None.
(* NavStatePath.h:336, 340; the int argument becomes an unsigned index *)
Definition nsp_at (s : nsp) (level : Z) : option (option N) :=
  if (0 <=? level)%Z then v ← slot s (Z.to_N level); Some (Some v) else None.
(* NavStatePath.h:305-309 *)
Definition nsp_last_exited (s : nsp) : option (option N) :=
  if (Z.of_N (p_cur s) <? nsp_max_level s - 1)%Z then v ← slot s (p_cur s); Some (Some v) else Some None.
(* NavStatePath.h:415-417 *)
Fixpoint same_loop (a b : nsp) (n : nat) : option bool :=
  match n with
  | O => Some true
  | S i => x ← slot a (N.of_nat i); y ← slot b (N.of_nat i); if x =? y then same_loop a b i else Some false
  end.
(* NavStatePath.h:412-419 *)
Definition nsp_same (a b : nsp) : option bool :=
  if p_cur a =? p_cur b then same_loop a b (N.to_nat (p_cur a)) else Some false.
(* NavStatePath.h:474-488 with VariableSizeObj.h:60-76; [a] and [b] are different objects *)
Definition nsp_assign (a b : nsp) : option nsp :=
  let k := if (p_n b <=? p_n a)%nat then p_n b else p_n a in
  if (k <=? length (p_vals b))%nat && (p_n a <=? length (p_vals a))%nat then
    Some (Nsp (take k (p_vals b) ++ replicate (p_n a - k) 0 ++ drop (p_n a) (p_vals a))
              (p_n a) (p_cur b) (p_cache b) (p_bnd b))
  else None.
(* NavStatePath.h:260-275: memcpy of the header, fN included, and fCurrentLevel + 1 slots *)
Definition nsp_copy_to (a other : nsp) : option nsp :=
  let k := (N.to_nat (p_cur a) + 1)%nat in
  if (k <=? length (p_vals a))%nat && (k <=? length (p_vals other))%nat then
    Some (Nsp (take k (p_vals a) ++ drop k (p_vals other)) (p_n a) (p_cur a) (p_cache a) (p_bnd a))
  else None.

(* NavStatePath.h:586-588: levels i .. i+n-1 *)
Fixpoint matrix_loop (s : nsp) (i : N) (n : nat) (m : T) : option T :=
  match n with
  | O => Some m
  | S n' => v ← slot s i; matrix_loop s (i + 1) n' (t_mul TO m (g_tr G v))
  end.
(* NavStatePath.h:577-589 *)
Definition nsp_top_matrix (s : nsp) : option T := matrix_loop s 1 (N.to_nat (p_cur s - 1)) (t_one TO).
(* NavStatePath.cpp:28-33 *)
Definition nsp_top_matrix_to (s : nsp) (tolevel : nat) : option T := matrix_loop s 1 (tolevel - 1) (t_one TO).
(* NavStatePath.cpp:62-66 *)
Fixpoint point_loop {P} (act : T → P → P) (s : nsp) (i : N) (n : nat) (p : P) : option P :=
  match n with
  | O => Some p
  | S n' => v ← slot s i; point_loop act s (i + 1) n' (act (g_tr G v) p)
  end.
(* NavStatePath.cpp:58-68 GlobalToLocal *)
Definition nsp_global_to_local {P} (act : T → P → P) (s : nsp) (p : P) : option P :=
  point_loop act s 0 (N.to_nat (p_cur s)) p.
(* NavStatePath.cpp:15-25 GlobalToLocal(point, tolevel) *)
Definition nsp_global_to_local_to {P} (act : T → P → P) (s : nsp) (p : P) (tolevel : nat) : option P :=
  point_loop act s 0 tolevel p.

(* NavStatePath.cpp:71-78 *)
Fixpoint find_index (ds : list N) (d : N) (i : N) : option N :=
  match ds with
  | [] => None
  | x :: ds' => if x =? d then Some i else find_index ds' d (i + 1)
  end.
(* NavStatePath.cpp:91-93: level n down to 1 *)
Fixpoint path_loop (s : nsp) (n : nat) (acc : list N) : option (list N) :=
  match n with
  | O => Some acc
  | S k => m ← slot s (N.of_nat k); d ← slot s (N.of_nat n); i ← find_index (g_dau G m) d 0; path_loop s k (i :: acc)
  end.
(* NavStatePath.cpp:87-95 *)
Definition nsp_path_indices (s : nsp) : option (list N) :=
  if nsp_outside s then Some [] else l ← path_loop s (N.to_nat (p_cur s) - 1) []; Some (0 :: l).
(* NavStatePath.cpp:120-125 from the second index on; ToIndex(NULL) dereferences null *)
Fixpoint nsp_reset_loop (s : nsp) (counter : N) (ids : list N) : option nsp :=
  match ids with
  | [] => Some s
  | x :: ids' =>
      m ← slot s (counter - 1); v ← g_dau G m !! N.to_nat x;
      vs ← set_slot s counter v;
      nsp_reset_loop (Nsp vs (p_n s) (p_cur s) (p_cache s) (p_bnd s)) (counter + 1) ids'
  end.
(* NavStatePath.cpp:113-127; fCurrentLevel is an unsigned char *)
Definition nsp_reset_path (s : nsp) (world : N) (ids : list N) : option nsp :=
  let s1 := Nsp (p_vals s) (p_n s) (N.of_nat (length ids) mod 256) (p_cache s) (p_bnd s) in
  match ids with
  | [] => Some s1
  | _ :: ids' => vs ← set_slot s1 0 world;
      nsp_reset_loop (Nsp vs (p_n s1) (p_cur s1) (p_cache s1) (p_bnd s1)) 1 ids'
  end.

(** Histories; SetLastExited does nothing (NavStatePath.h:313). *)
Definition nsp_step (s : nsp) (o : nop) : option nsp :=
  match o with
  | NPush v => nsp_push s v
  | NPop => Some (nsp_pop s)
  | NClear => Some (nsp_clear s)
  | NSetLast => Some s
  | NSetBoundary b => Some (nsp_set_boundary s b)
  end.
Fixpoint nsp_run (s : nsp) (os : list nop) : option nsp :=
  match os with
  | [] => Some s
  | o :: os' => s' ← nsp_step s o; nsp_run s' os'
  end.

(** * Comparing two states *)
Definition eq_opt (a b : option N) : bool :=
  match a, b with Some x, Some y => x =? y | None, None => true | _, _ => false end.
(* NavStatePath.h:653-659, NavStateIndex.cpp:152-158: levels i .. i+n-1; result lastcommonlevel *)
Fixpoint common_loop (at1 at2 : Z → option (option N)) (i : Z) (n : nat) (last : Z) : option Z :=
  match n with
  | O => Some last
  | S n' => a ← at1 i; b ← at2 i;
      if eq_opt a b then common_loop at1 at2 (i + 1) n' i else Some last
  end.
(* NavStatePath.h:647-662 *)
Definition nsp_distance (a b : nsp) : option Z :=
  c ← common_loop (nsp_at a) (nsp_at b) 0 (N.to_nat (N.min (p_cur a) (p_cur b))) (-1);
  Some ((Z.of_N (p_cur a) - c) + (Z.of_N (p_cur b) - c) - 2)%Z.
(* NavStateIndex.cpp:144-161 *)
Definition nsi_distance (fuel : nat) (t : ntab T) (a b : nsi) : option Z :=
  la ← nsi_level t a; lb ← nsi_level t b;
  c ← common_loop (nsi_at fuel t a) (nsi_at fuel t b) 0 (N.to_nat (N.min la lb) + 1) (-1);
  Some ((Z.of_N la - c) + (Z.of_N lb - c))%Z.

(** The moves printed by RelativePath. *)
Inductive move := MUp | MHoriz (delta : Z) | MDown (v : N).
(* values at levels i .. i+n-1 as "down" moves *)
Fixpoint downs (val : Z → option N) (i : Z) (n : nat) : option (list move) :=
  match n with
  | O => Some []
  | S n' => v ← val i; l ← downs val (i + 1) n'; Some (MDown v :: l)
  end.
(* NavStatePath.cpp:142-187 and NavStateIndex.cpp:99-141, with the levels of both states
   and the last common level *)
Definition relative_moves (val1 val2 : Z → option N) (l1 l2 c : Z) : option (list move) :=
  if ((l1 =? c) && (l2 =? c))%Z then Some []
  else if ((c <? l1) && (l2 =? c))%Z then Some (replicate (Z.to_nat (l1 - c)) MUp)
  else if ((l1 =? c) && (c <? l2))%Z then downs val2 (c + 1) (Z.to_nat (l2 - c))
  else if ((c <? l1) && (c <? l2))%Z then
    y ← val2 (c + 1)%Z; x ← val1 (c + 1)%Z;
    let delta := (Z.of_N y - Z.of_N x)%Z in
    ds ← downs val2 (c + 2) (Z.to_nat (l2 - c - 1));
    Some (replicate (Z.to_nat (l1 - c - 1)) MUp ++ (if (delta =? 0)%Z then [] else [MHoriz delta]) ++ ds)
  else Some [].
(* NavStatePath.cpp:129-188 *)
Definition nsp_relative (a b : nsp) : option (list move) :=
  c ← common_loop (nsp_at a) (nsp_at b) 0 (N.to_nat (N.min (p_cur a) (p_cur b))) (-1);
  relative_moves (λ i, slot a (Z.to_N i)) (λ i, slot b (Z.to_N i))
    (Z.of_N (p_cur a) - 1) (Z.of_N (p_cur b) - 1) c.
(* NavStateIndex.cpp:83-142 *)
Definition nsi_relative (fuel : nat) (t : ntab T) (a b : nsi) : option (list move) :=
  la ← nsi_level t a; lb ← nsi_level t b;
  c ← common_loop (nsi_at fuel t a) (nsi_at fuel t b) 0 (N.to_nat (N.min la lb) + 1) (-1);
  relative_moves (nsi_value_at fuel t a) (nsi_value_at fuel t b) (Z.of_N la) (Z.of_N lb) c.

(** * NavIndexTable::ValidateState, NavIndexTable.cpp:101-161.  [false] = an exception is
    thrown or a mismatch reported; [teq] is Transformation3D::operator==. *)
(* :107-116 *)
Fixpoint validate_loop (t : ntab T) (s : nsp) (i : N) (n : nat) (ni : N) : option N :=
  match n with
  | O => Some ni
  | S n' => v ← slot s i; ni' ← push_impl G t ni v; validate_loop t s (i + 1) n' ni'
  end.
Definition validate (r : N) (teq : T → T → bool) (fuel : nat) (t : ntab T) (s : nsp) : option (bool * N) :=
  let level := nsp_level s in
  ni ← validate_loop t s 1 (N.to_nat level) 1;
  top1 ← top_impl t ni; top2 ← nsp_top s;
  l ← level_impl t ni;
  up ← (if 0 <? level then
          m ← pop_impl t ni; v ← slot s level; c ← push_impl G t m v; Some (c =? ni)
        else Some true);
  nd ← ndaughters_impl t ni;
  top ← top2;
  m1 ← nsp_top_matrix s; m2 ← top_matrix_impl G TO r fuel t ni (t_one TO);
  Some (eq_opt top1 top2 && (level =? l) && up && (nd =? N.of_nat (length (g_dau G top))) && teq m1 m2, ni).
End NavPath.
