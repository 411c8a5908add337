(** Model of the navigation index table and of NavStateIndex.
    VecGeom/management/NavIndexTable.h, source/NavIndexTable.cpp,
    VecGeom/navigation/NavStateIndex.h, source/NavStateIndex.cpp (host code).

    Placed volumes are named by their id; the index <-> pointer conversion of the
    compact placed-volume buffer is the identity here (see C52 for the buffer itself).
    The table is a map from slot numbers to words; [WN] is a NavIndex_t or the three
    packed header fields, [WM t k] the k-th NavIndex_t-sized part of the 12 Precision
    values of transformation [t].  [nelem] slots are allocated.  The result [None]
    stands for an access outside the allocation, a read of an uninitialised slot, a
    read of transformation data as an index, a null pointer dereference or a recursion
    deeper than the fuel.
    Simplifications: NavIndex_t does not overflow (tables < 2^32 slots), depth_limit <= 0
    is written 0, transformations are abstract ([tops]). *)
From stdpp Require Import list option gmap fin_maps.
From Coq Require Import NArith ZArith.
Local Open Scope N_scope.

Section Nav.
Context {T : Type}.

Inductive word := WN (n : N) | WM (t : T) (k : N).

(** The geometry as seen through VPlacedVolume / LogicalVolume. *)
Record geo := Geo {
  g_dau : N → list N;   (* GetDaughters(): daughters of the logical volume of a placed volume *)
  g_child : N → N;      (* GetChildId() *)
  g_req : N → bool;     (* GetLogicalVolume()->IsReqCaching() *)
  g_tr : N → T }.       (* GetTransformation() *)

(** What is used of Transformation3D. *)
Record tops := Tops {
  t_one : T;                        (* default constructor *)
  t_mul : T → T → T;                (* a.MultiplyFromRight(b) *)
  t_hast : T → bool;                (* HasTranslation() *)
  t_hasr : T → bool;                (* HasRotation() *)
  t_set : T → bool → bool → T }.    (* Set(trans, rot, has_trans, has_rot) reading the stored values of the argument *)

Context (G : geo) (TO : tops).
Context (r : N).     (* sizeof(Precision) / sizeof(NavIndex_t) *)
Context (limit : N). (* fLimitDepth *)

(* NavIndexTable.cpp:14  (unsigned short)lv->GetDaughters().size() *)
Definition nd_of (p : N) : N := N.of_nat (length (g_dau G p)) mod 65536.
(* NavIndexTable.cpp:11,18 cacheTrans *)
Definition cached (p level : N) : bool := negb ((0 <? limit) && (limit <? level) && negb (g_req G p)).
(* NavIndexTable.cpp:28 daughterIndices; NavStateIndex.h:239 *)
Definition dind_len (nd : N) : N := 3 + nd + N.land (nd + 1) 1.
(* NavIndexTable.cpp:29-30 padTransformationData; NavStateIndex.h:240; sizeof(NavIndex_t) = 4 *)
Definition padded (before : N) : N := if (before * 4) mod (4 * r) =? 0 then 0 else 1.
(* the header word: level in byte 0, hasm in byte 1, nd in bytes 2-3 (little endian)
   NavIndexTable.cpp:56-67 *)
Definition hdr (level hasm nd : N) : N := level mod 256 + 256 * hasm + 65536 * nd.

(* NavStatePath.h:577-589 TopMatrix: levels 1 .. *)
Definition path_matrix (s : list N) : T := foldl (λ a p, t_mul TO a (g_tr G p)) (t_one TO) (drop 1 s).

(** * Sizing pass: BuildNavIndexVisitor::apply with fDoCount, NavIndexTable.cpp:27-43.
    The state is fTableSize in bytes; the returned mother index is 0. *)
Definition apply_count (ts : N) (s : list N) (level mother dind : N) : option (N * N) :=
  p ← last s;
  let di := dind_len (nd_of p) in
  let pad := padded (ts / 4 + di) in
  Some (ts + (di + pad) * 4 + (if cached p level then 12 * (4 * r) else 0), 0).

(** * Filling pass, NavIndexTable.cpp:45-98 *)
Record vst := VSt { tab : gmap N word; cur : N }.
Definition store (nelem : N) (m : gmap N word) (a : N) (w : word) : option (gmap N word) :=
  if a <? nelem then Some (<[a := w]> m) else None.
(* stores ws at a, a+1, ... *)
Fixpoint stores (nelem : N) (m : gmap N word) (a : N) (ws : list word) : option (gmap N word) :=
  match ws with
  | [] => Some m
  | w :: ws' => m' ← store nelem m a w; stores nelem m' (a + 1) ws'
  end.
Definition mat_words (t : T) : list word := map (λ k, WM t (N.of_nat k)) (seq 0 (N.to_nat (12 * r))).
Definition hasm_of (t : T) : N := 4 + 2 * N.b2n (t_hast TO t) + N.b2n (t_hasr TO t).

Definition apply_fill (nelem : N) (st : vst) (s : list N) (level mother dind : N) : option (vst * N) :=
  p ← last s;
  let c := cur st in
  let nd := nd_of p in
  let di := dind_len nd in
  let pad := padded (c + di) in
  m1 ← store nelem (tab st) c (WN mother);                                       (* :48 *)
  m2 ← (if 0 <? mother then store nelem m1 (mother + 3 + dind) (WN c) else Some m1);  (* :51 *)
  v ← s !! N.to_nat level;
  m3 ← store nelem m2 (c + 1) (WN v);                                            (* :54 *)
  m4 ← store nelem m3 (c + 2) (WN (hdr level 0 nd));                             (* :57-67 *)
  m5 ← stores nelem m4 (c + 3) (replicate (N.to_nat nd) (WN 0));                 (* :70-72 *)
  let c1 := c + di in                                                            (* :74 *)
  if negb (cached p level) then Some (VSt m5 c1, c)                              (* :76 *)
  else
    let mat := path_matrix s in                                                  (* :80 *)
    m6 ← store nelem m5 (c + 2) (WN (hdr level (hasm_of mat) nd));               (* :81 *)
    let c2 := c1 + pad in                                                        (* :84 *)
    m7 ← stores nelem m6 c2 (mat_words mat);                                     (* :88-93 *)
    Some (VSt m7 (c2 + 12 * (4 * r) / 4), c).                                    (* :96 *)

(* NavIndexTable.h:159-162: the loop over the daughters *)
Fixpoint loop {S} (f : N → N → S → option S) (ds : list N) (i : N) (st : S) : option S :=
  match ds with
  | [] => Some st
  | d :: ds' => st' ← f d i st; loop f ds' (i + 1) st'
  end.
(* NavIndexTable.h:151-165 visitAllPlacedVolumesNavIndex; the NavStatePath is its list of
   volumes (C13), recursion on fuel *)
Fixpoint visit {S} (ap : S → list N → N → N → N → option (S * N)) (fuel : nat)
    (p : N) (st : S) (s : list N) (level mother dind : N) : option S :=
  match fuel with
  | O => None
  | Datatypes.S f =>
      let s' := s ++ [p] in
      '(st1, nm) ← ap st s' level mother dind;
      loop (λ d i st, visit ap f d st s' (level + 1) nm i) (g_dau G p) 0 st1
  end.

(* NavIndexTable.h:104-112 ComputeTableSize; fTableSize starts at sizeof(NavIndex_t) (:24) *)
Definition table_size (fuel : nat) (world : N) : option N :=
  visit apply_count fuel world 4 [] 0 0 0.
(* NavIndexTable.h:114-132 CreateTable with AllocateTable (:87-102); fCurrent starts at 1 (:29) *)
Definition create_table (fuel : nat) (world : N) : option vst :=
  bytes ← table_size fuel world;
  let nelem := bytes / 4 + 1 in
  m0 ← store nelem ∅ 0 (WN 0);
  visit (apply_fill nelem) fuel world (VSt m0 1) [] 0 0 0.

(** * NavStateIndex *)
Definition ntab := gmap N word.
(* NavStateIndex.h:143 NavInd *)
Definition nav_ind (t : ntab) (a : N) : option N :=
  match t !! a with Some (WN n) => Some n | _ => None end.
(* NavStateIndex.h:171-176 *)
Definition ndaughters_impl (t : ntab) (ni : N) : option N := w ← nav_ind t (ni + 2); Some (w / 65536 mod 65536).
(* NavStateIndex.h:180-185 *)
Definition level_impl (t : ntab) (ni : N) : option N := w ← nav_ind t (ni + 2); Some (w mod 256).
(* NavStateIndex.h:219-224 *)
Definition hasm_impl (t : ntab) (ni : N) : option N := w ← nav_ind t (ni + 2); Some (w / 256 mod 256).
(* NavStateIndex.h:193-195; the loop condition decrements [up] also below zero *)
Fixpoint climb (fuel : nat) (t : ntab) (mother : N) (up : Z) : option N :=
  match fuel with
  | O => None
  | S f => if mother =? 0 then Some 0 else if (up =? 0)%Z then Some mother
           else m ← nav_ind t mother; climb f t m (up - 1)%Z
  end.
(* NavStateIndex.h:189-196 *)
Definition nav_index_impl (fuel : nat) (t : ntab) (ni : N) (level : Z) : option N :=
  l ← level_impl t ni; climb fuel t ni (Z.of_N l - level)%Z.
(* NavStateIndex.h:200 *)
Definition pop_impl (t : ntab) (ni : N) : option N := if 0 <? ni then nav_ind t ni else Some 0.
(* NavStateIndex.h:204-207 *)
Definition push_impl (t : ntab) (ni v : N) : option N :=
  if 0 <? ni then nav_ind t (ni + 3 + g_child G v) else Some 1.
(* NavStateIndex.h:211-214; the inner option is the (possibly null) pointer *)
Definition top_impl (t : ntab) (ni : N) : option (option N) :=
  if 0 <? ni then v ← nav_ind t (ni + 1); Some (Some v) else Some None.

(* reading the 12 values back: all words must belong to one transformation *)
Definition read_mat (t : ntab) (a : N) : option T :=
  match t !! a with
  | Some (WM m 0) =>
      if forallb (λ k, match t !! (a + N.of_nat k) with Some (WM _ k') => k' =? N.of_nat k | _ => false end)
           (seq 0 (N.to_nat (12 * r))) then Some m else None
  | _ => None
  end.
(* NavStateIndex.h:222-231 *)
Fixpoint climb_uncached (fuel : nat) (t : ntab) (ni : N) (tr : T) : option (N * N * T) :=
  match fuel with
  | O => None
  | S f =>
      if ni =? 0 then Some (0, 0, tr)
      else
        hasm ← hasm_impl t ni;
        if 0 <? N.land hasm 4 then Some (ni, hasm, tr)
        else
          v ← nav_ind t (ni + 1);
          m ← nav_ind t ni;
          climb_uncached f t m (t_mul TO (g_tr G v) tr)
  end.
(* NavStateIndex.h:217-250 TopMatrixImpl *)
Definition top_matrix_impl (fuel : nat) (t : ntab) (ni : N) (tr : T) : option T :=
  '(ni, hasm, tr) ← climb_uncached fuel t ni tr;
  if ni =? 0 then Some tr
  else if N.land hasm 3 =? 0 then Some tr
  else
    let has_trans := 0 <? N.land hasm 2 in
    let has_rot := 0 <? N.land hasm 1 in
    nd ← ndaughters_impl t ni;
    let i := ni + dind_len nd in
    let i' := i + padded i in
    m ← read_mat t i';
    Some (t_mul TO (t_set TO m has_trans has_rot) tr).

(* NavStateIndex.h:35-37 *)
Record nsi := Nsi { n_ind : N; n_last : N; n_bnd : bool }.
(* NavStateIndex.h:41 *)
Definition nsi_new : nsi := Nsi 0 0 false.
(* NavStateIndex.h:405-410 *)
Definition nsi_clear (s : nsi) : nsi := Nsi 0 0 false.
(* NavStateIndex.h:276-280 *)
Definition nsi_push (t : ntab) (s : nsi) (v : N) : option nsi :=
  i ← push_impl t (n_ind s) v; Some (Nsi i (n_last s) (n_bnd s)).
(* NavStateIndex.h:284-288 *)
Definition nsi_pop (t : ntab) (s : nsi) : option nsi :=
  i ← pop_impl t (n_ind s); Some (Nsi i (n_last s) (n_bnd s)).
(* NavStateIndex.h:268 *)
Definition nsi_set_last (s : nsi) : nsi := Nsi (n_ind s) (n_ind s) (n_bnd s).
(* NavStateIndex.h:441 *)
Definition nsi_set_boundary (s : nsi) (b : bool) : nsi := Nsi (n_ind s) (n_last s) b.
(* NavStateIndex.h:292 *)
Definition nsi_top (t : ntab) (s : nsi) : option (option N) := top_impl t (n_ind s).
(* NavStateIndex.h:264 *)
Definition nsi_last_exited (t : ntab) (s : nsi) : option (option N) := top_impl t (n_last s).
(* NavStateIndex.h:300 *)
Definition nsi_level (t : ntab) (s : nsi) : option N := level_impl t (n_ind s).
(* NavStateIndex.h:305: unsigned char arithmetic *)
Definition nsi_current_level (t : ntab) (s : nsi) : option N := l ← nsi_level t s; Some ((l + 1) mod 256).
(* NavStateIndex.h:272 *)
Definition nsi_ndaughters (t : ntab) (s : nsi) : option N := ndaughters_impl t (n_ind s).
(* NavStateIndex.h:319-323 *)
Definition nsi_at (fuel : nat) (t : ntab) (s : nsi) (level : Z) : option (option N) :=
  p ← nav_index_impl fuel t (n_ind s) level;
  if 0 <? p then v ← nav_ind t (p + 1); Some (Some v) else Some None.
(* NavStateIndex.h:330-334 *)
Definition nsi_value_at (fuel : nat) (t : ntab) (s : nsi) (level : Z) : option N :=
  p ← nav_index_impl fuel t (n_ind s) level;
  if 0 <? p then nav_ind t (p + 1) else Some 0.
(* NavStateIndex.h:433 *)
Definition nsi_outside (s : nsi) : bool := n_ind s =? 0.
(* NavStateIndex.h:420 *)
Definition nsi_same (s o : nsi) : bool := n_ind s =? n_ind o.
(* NavStateIndex.h:337 *)
Definition nsi_top_matrix (fuel : nat) (t : ntab) (s : nsi) : option T :=
  top_matrix_impl fuel t (n_ind s) (t_one TO).
(* NavStateIndex.h:340-343 *)
Definition nsi_top_matrix_to (fuel : nat) (t : ntab) (s : nsi) (tolevel : Z) : option T :=
  i ← nav_index_impl fuel t (n_ind s) tolevel; top_matrix_impl fuel t i (t_one TO).

(* NavStateIndex.cpp:38-43 *)
Fixpoint indices_loop (fuel : nat) (t : ntab) (ni : N) (acc : list N) : option (list N) :=
  match fuel with
  | O => None
  | S f =>
      if 1 <? ni then
        v ← nav_ind t (ni + 1); m ← pop_impl t ni; indices_loop f t m (g_child G v :: acc)
      else Some acc
  end.
(* NavStateIndex.cpp:33-46 *)
Definition nsi_path_indices (fuel : nat) (t : ntab) (s : nsi) : option (list N) :=
  if nsi_outside s then Some [] else l ← indices_loop fuel t (n_ind s) []; Some (0 :: l).
(* NavStateIndex.cpp:76-80 *)
Fixpoint reset_loop (t : ntab) (s : nsi) (vol : N) (counter : nat) (ids : list N) : option nsi :=
  match ids with
  | [] => Some s
  | id :: ids' =>
      vol' ← (if (0 <? counter)%nat then g_dau G vol !! N.to_nat id else Some vol);
      s' ← nsi_push t s vol';
      reset_loop t s' vol' (S counter) ids'
  end.
(* NavStateIndex.cpp:70-81 *)
Definition nsi_reset_path (t : ntab) (s : nsi) (world : N) (ids : list N) : option nsi :=
  reset_loop t (nsi_clear s) world 0 ids.

(** Histories on a compact state. *)
Inductive nop := NPush (v : N) | NPop | NClear | NSetLast | NSetBoundary (b : bool).
Definition nsi_step (t : ntab) (s : nsi) (o : nop) : option nsi :=
  match o with
  | NPush v => nsi_push t s v
  | NPop => nsi_pop t s
  | NClear => Some (nsi_clear s)
  | NSetLast => Some (nsi_set_last s)
  | NSetBoundary b => Some (nsi_set_boundary s b)
  end.
Fixpoint nsi_run (t : ntab) (s : nsi) (os : list nop) : option nsi :=
  match os with
  | [] => Some s
  | o :: os' => s' ← nsi_step t s o; nsi_run t s' os'
  end.
End Nav.
Arguments word : clear implicits.
Arguments geo : clear implicits.
Arguments tops : clear implicits.
Arguments vst : clear implicits.
Arguments ntab : clear implicits.
