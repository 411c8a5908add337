(** Model of the geometry manager: registration and lookup of volumes, closing of the
    geometry with the compaction of the placed volumes, and the visitors.
    VecGeom/management/GeoManager.h, source/GeoManager.cpp, VecGeom/management/GeoVisitor.h,
    source/LogicalVolume.cpp, source/PlacedVolume.cpp (host code, default configuration).

    The heaps of placed, logical and unplaced volumes are finite maps from addresses to
    objects.  An address is the place of an object made by [new] or a slot of a compact
    buffer; the allocator may give an address again after the object there was destroyed.
    The result [None] stands for a use of a dangling or null pointer, an access outside an
    allocation, a failed assert, a signed overflow or a recursion deeper than the fuel.
    Simplifications: labels, transformations and the data of simple shapes are abstract;
    CloseGeometry does not build bounding boxes (GeoManager.cpp:214, see C39) nor the
    navigation index table (:217-219, see C11); two compact buffers have different
    addresses; FindPlacedVolume / FindLogicalVolume are called with non-negative ids. *)
From stdpp Require Import list option gmap fin_maps.
From Coq Require Import NArith ZArith.
From Verif Require Import NavTableModel NavPathModel.
Local Open Scope N_scope.

(** * std::map<unsigned int, V> iterated in the order of its keys *)
Section Smap.
Context {V : Type}.
Definition smap := list (N * V).
(* operator[] followed by an assignment *)
Fixpoint sm_insert (k : N) (v : V) (m : smap) : smap :=
  match m with
  | [] => [(k, v)]
  | (k', v') :: r => if k =? k' then (k, v) :: r else if k <? k' then (k, v) :: m else (k', v') :: sm_insert k v r
  end.
(* find *)
Fixpoint sm_find (k : N) (m : smap) : option V :=
  match m with
  | [] => None
  | (k', v') :: r => if k =? k' then Some v' else sm_find k r
  end.
(* erase *)
Fixpoint sm_erase (k : N) (m : smap) : smap :=
  match m with
  | [] => []
  | (k', v') :: r => if k =? k' then r else (k', v') :: sm_erase k r
  end.
End Smap.
Arguments smap : clear implicits.

(** * Visitors *)
Section Visit.
Context {P S : Type} (dau : P → option (list P)).
(* GeoManager.h:264-274 visitAllPlacedVolumes, [ap] is Visitor::apply *)
Fixpoint visit_all (ap : P → N → S → option S) (fuel : nat) (p : P) (level : N) (st : S) : option S :=
  match fuel with
  | O => None
  | Datatypes.S f =>
      st1 ← ap p level st;
      ds ← dau p;
      foldl (λ a d, s ← a; visit_all ap f d (level + 1) s) (Some st1) ds
  end.
End Visit.

Definition int_max : N := 2147483647.
(* GeoVisitor.h:88 *)
Definition apply_depth {P} (_ : P) (level : N) (m : N) : option N := Some (if m <? level then level else m).
(* GeoVisitor.h:99; the int overflows at INT_MAX *)
Definition apply_count {P} (_ : P) (level : N) (n : N) : option N := if n <? int_max then Some (n + 1) else None.
(* GeoVisitor.h:77 *)
Definition apply_placed {P} (p : P) (level : N) (c : list P) : option (list P) := Some (c ++ [p]).
(* GeoVisitor.h:63-69 *)
Definition apply_logical {P} (lvo : P → option N) (p : P) (level : N) (c : list N) : option (list N) :=
  l ← lvo p; Some (if decide (l ∈ c) then c else c ++ [l]).
(* GeoManager.cpp:200-202 *)
Definition max_depth {P} (dau : P → option (list P)) (fuel : nat) (world : P) : option N :=
  visit_all dau apply_depth fuel world 1 0.
(* GeoManager.cpp:204-206 *)
Definition node_count {P} (dau : P → option (list P)) (fuel : nat) (world : P) : option N :=
  visit_all dau apply_count fuel world 1 0.
(* GeoManager.h:286-294 *)
Definition all_placed {P} (dau : P → option (list P)) (fuel : nat) (world : P) : option (list P) :=
  visit_all dau apply_placed fuel world 0 [].
(* GeoManager.h:276-284 *)
Definition all_logical {P} (dau : P → option (list P)) (lvo : P → option N) (fuel : nat) (world : P) : option (list N) :=
  visit_all dau (apply_logical lvo) fuel world 0 [].

(** The visitor with a navigation state; as in C13, placed volumes are named by their id. *)
Section Context_.
Context {T : Type} (G : geo T) (lvo : N → N).
(* GeoManager.cpp:409-419; MakeCopy copies the whole object *)
Definition apply_paths (lv : N) (s : nsp) (c : list nsp) : option (list nsp) :=
  t ← nsp_top s; v ← t; Some (if lvo v =? lv then c ++ [s] else c).
(* GeoManager.cpp:422-435 *)
Fixpoint visit_context (lv : N) (fuel : nat) (p : N) (s : nsp) (c : list nsp) : option (nsp * list nsp) :=
  match fuel with
  | O => None
  | S f =>
      s1 ← nsp_push s p;
      c1 ← apply_paths lv s1 c;
      '(s2, c2) ← foldl (λ a d, '(s, c) ← a; visit_context lv f d s c) (Some (s1, c1)) (g_dau G p);
      Some (nsp_pop s2, c2)
  end.
(* GeoManager.cpp:437-450; [maxd] is getMaxDepth() *)
Definition all_paths (lv : N) (maxd : nat) (fuel : nat) (world : N) : option (list nsp) :=
  '(_, c) ← visit_context lv fuel world (nsp_clear (nsp_make maxd)) []; Some c.

(* LogicalVolume.cpp:225-232; [ldau] are the daughters of a logical volume *)
Fixpoint n_total (ldau : N → list N) (fuel : nat) (lv : N) : option N :=
  match fuel with
  | O => None
  | S f => foldl (λ a d, n ← a; m ← n_total ldau f (lvo d); Some (n + m)) (Some (N.of_nat (length (ldau lv)))) (ldau lv)
  end.
End Context_.

(** * The manager *)
Section Manager.
Context {T Sh : Type}.   (* Transformation3D, data of a shape without placed volumes *)

(** Addresses of placed volumes. *)
Definition addr := (N + N * N)%type.
Notation Obj a := (inl a : addr).         (* an object made by new *)
Notation Slot g i := (inr (g, i) : addr). (* &buffer_g[i] *)

(* PlacedVolume.h:57-71 *)
Record pvol := PV { pv_id : N; pv_label : N; pv_lv : N; pv_tr : T; pv_child : Z }.
(* UnplacedBooleanVolume.h:156-158, 185-186 and UnplacedScaledShape.h:157, 225 hold placed volumes *)
Inductive shape := Simple (s : Sh) | Boolean (op : N) (l r : addr) | Scaled (p : addr).
(* LogicalVolume.cpp:59-66 *)
Record lvol := LV { lv_id : N; lv_label : N; lv_shape : N; lv_dau : list addr }.

(* GeoManager.h:37-47, 66 and the static counters PlacedVolume.h:63, LogicalVolume.cpp:56 *)
Record gm := GM {
  g_pheap : gmap addr pvol;
  g_lheap : gmap N lvol;
  g_uheap : gmap N shape;
  g_pmap : smap (option addr);   (* fPlacedVolumesMap; None is a null pointer *)
  g_lmap : smap N;               (* fLogicalVolumesMap *)
  g_v2i : gmap addr N;           (* fVolumeToIndexMap *)
  g_world : option addr;
  g_closed : bool;
  g_pcount : N;
  g_lcount : N;
  g_buf : option (N * N);        (* gCompactPlacedVolBuffer and the number of its slots *)
  g_gen : N;                     (* number of buffers allocated so far *)
  g_depth : N;                   (* fMaxDepth *)
  g_total : N }.                 (* fTotalNodeCount *)

(* GeoManager.h:254-258; fMaxDepth = -1 is not used before closing *)
Definition gm_new : gm := GM ∅ ∅ ∅ [] [] ∅ None false 0 0 None 0 0 0.

(* assignments to single members *)
Definition set_pheap (s : gm) h := GM h (g_lheap s) (g_uheap s) (g_pmap s) (g_lmap s) (g_v2i s) (g_world s)
  (g_closed s) (g_pcount s) (g_lcount s) (g_buf s) (g_gen s) (g_depth s) (g_total s).
Definition set_lheap (s : gm) h := GM (g_pheap s) h (g_uheap s) (g_pmap s) (g_lmap s) (g_v2i s) (g_world s)
  (g_closed s) (g_pcount s) (g_lcount s) (g_buf s) (g_gen s) (g_depth s) (g_total s).
Definition set_uheap (s : gm) h := GM (g_pheap s) (g_lheap s) h (g_pmap s) (g_lmap s) (g_v2i s) (g_world s)
  (g_closed s) (g_pcount s) (g_lcount s) (g_buf s) (g_gen s) (g_depth s) (g_total s).
Definition set_pmap (s : gm) m := GM (g_pheap s) (g_lheap s) (g_uheap s) m (g_lmap s) (g_v2i s) (g_world s)
  (g_closed s) (g_pcount s) (g_lcount s) (g_buf s) (g_gen s) (g_depth s) (g_total s).
Definition set_lmap (s : gm) m := GM (g_pheap s) (g_lheap s) (g_uheap s) (g_pmap s) m (g_v2i s) (g_world s)
  (g_closed s) (g_pcount s) (g_lcount s) (g_buf s) (g_gen s) (g_depth s) (g_total s).
Definition set_v2i (s : gm) m := GM (g_pheap s) (g_lheap s) (g_uheap s) (g_pmap s) (g_lmap s) m (g_world s)
  (g_closed s) (g_pcount s) (g_lcount s) (g_buf s) (g_gen s) (g_depth s) (g_total s).
Definition set_world (s : gm) w := GM (g_pheap s) (g_lheap s) (g_uheap s) (g_pmap s) (g_lmap s) (g_v2i s) w
  (g_closed s) (g_pcount s) (g_lcount s) (g_buf s) (g_gen s) (g_depth s) (g_total s).
Definition set_counts (s : gm) p l := GM (g_pheap s) (g_lheap s) (g_uheap s) (g_pmap s) (g_lmap s) (g_v2i s) (g_world s)
  (g_closed s) p l (g_buf s) (g_gen s) (g_depth s) (g_total s).

(** * Registration *)
(* GeoManager.cpp:40-48 *)
Definition register_placed (s : gm) (id : N) (p : addr) : gm :=
  if g_closed s then s else set_pmap s (sm_insert id (Some p) (g_pmap s)).
(* GeoManager.cpp:31-38 *)
Definition register_logical (s : gm) (id : N) (l : N) : gm :=
  if g_closed s then s else set_lmap s (sm_insert id l (g_lmap s)).
(* GeoManager.cpp:60-68 *)
Definition deregister_placed (s : gm) (id : N) : gm :=
  match sm_find id (g_pmap s) with Some _ => set_pmap s (sm_erase id (g_pmap s)) | None => s end.
(* GeoManager.cpp:50-58 *)
Definition deregister_logical (s : gm) (id : N) : gm :=
  match sm_find id (g_lmap s) with Some _ => set_lmap s (sm_erase id (g_lmap s)) | None => s end.

(* an unplaced volume; the constructors of Boolean and scaled shapes read their placed volumes
   (UnplacedBooleanVolume.h:67, UnplacedScaledShape.h:72) *)
Definition shape_parts (u : shape) : list addr :=
  match u with Simple _ => [] | Boolean _ l r => [l; r] | Scaled p => [p] end.
(* as above; allocation of the object *)
Definition new_unplaced (s : gm) (u : N) (sh : shape) : option gm :=
  if decide (g_uheap s !! u = None ∧ Forall (λ p, is_Some (g_pheap s !! p)) (shape_parts sh))
  then Some (set_uheap s (<[u := sh]> (g_uheap s))) else None.
(* LogicalVolume.cpp:59-74; gIdCount is an int; the constructor reads the unplaced volume (:70) *)
Definition new_logical (s : gm) (l label u : N) : option gm :=
  match g_lheap s !! l, g_uheap s !! u with
  | None, Some _ =>
      if g_lcount s <? int_max then
        let id := g_lcount s in
        let s1 := set_counts s (g_pcount s) (id + 1) in
        let s2 := register_logical s1 id l in
        Some (set_lheap s2 (<[l := LV id label u []]> (g_lheap s2)))
      else None
  | _, _ => None
  end.
(* LogicalVolume.cpp:103-106 and PlacedVolume.cpp:23-35; g_id_count is unsigned *)
Definition new_placed (s : gm) (a label lv : N) (tr : T) : option gm :=
  match g_pheap s !! Obj a, g_lheap s !! lv with
  | None, Some _ =>
      let id := g_pcount s in
      let s1 := set_counts s ((id + 1) mod 4294967296) (g_lcount s) in
      let s2 := register_placed s1 id (Obj a) in
      Some (set_pheap s2 (<[Obj a := PV id label lv tr (-1)]> (g_pheap s2)))
  | _, _ => None
  end.
(* LogicalVolume.cpp:89-99 *)
Definition del_logical (s : gm) (l : N) : option gm :=
  v ← g_lheap s !! l; let s1 := deregister_logical s (lv_id v) in Some (set_lheap s1 (delete l (g_lheap s1))).
(* PlacedVolume.cpp:65-71; only objects made by new can be deleted *)
Definition del_placed (s : gm) (a : N) : option gm :=
  v ← g_pheap s !! Obj a; let s1 := deregister_placed s (pv_id v) in Some (set_pheap s1 (delete (Obj a) (g_pheap s1))).
(* LogicalVolume.cpp:140-146, without the bounding box update for assemblies (:150-152, see C67) *)
Definition place_daughter (s : gm) (l : N) (p : addr) : option gm :=
  lv ← g_lheap s !! l; v ← g_pheap s !! p;
  if (pv_child v <? 0)%Z then
    let s1 := set_pheap s (<[p := PV (pv_id v) (pv_label v) (pv_lv v) (pv_tr v) (Z.of_nat (length (lv_dau lv)))]> (g_pheap s)) in
    Some (set_lheap s1 (<[l := LV (lv_id lv) (lv_label lv) (lv_shape lv) (lv_dau lv ++ [p])]> (g_lheap s1)))
  else None.

(** * Lookup *)
(* GeoManager.cpp:278-282 *)
Definition find_placed (s : gm) (id : N) : option addr := p ← sm_find id (g_pmap s); p.
(* GeoManager.cpp:309-313 *)
Definition find_logical (s : gm) (id : N) : option N := sm_find id (g_lmap s).
(* GeoManager.cpp:288-304 *)
Fixpoint placed_label_loop (s : gm) (label : N) (m : smap (option addr)) (out : option addr) : option (option addr) :=
  match m with
  | [] => Some out
  | (_, p) :: r =>
      q ← p; v ← g_pheap s !! q;
      placed_label_loop s label r
        (if pv_label v =? label then match out with None => Some q | Some _ => out end else out)
  end.
(* GeoManager.cpp:284-307 *)
Definition find_placed_label (s : gm) (label : N) : option (option addr) := placed_label_loop s label (g_pmap s) None.
(* GeoManager.cpp:320-338 *)
Fixpoint logical_label_loop (s : gm) (label : N) (m : smap N) (out : option N) : option (option N) :=
  match m with
  | [] => Some out
  | (_, l) :: r =>
      v ← g_lheap s !! l;
      logical_label_loop s label r
        (if lv_label v =? label then match out with None => Some l | Some _ => out end else out)
  end.
(* GeoManager.cpp:315-341 *)
Definition find_logical_label (s : gm) (label : N) : option (option N) := logical_label_loop s label (g_lmap s) None.
(* GeoManager.cpp:343-347 *)
Definition logical_volume_id (s : gm) (label : N) : option Z :=
  o ← find_logical_label s label;
  match o with None => Some (-1)%Z | Some l => v ← g_lheap s !! l; Some (Z.of_N (lv_id v)) end.
(* GeoManager.cpp:349-353; None inside is the empty string *)
Definition logical_volume_label (s : gm) (id : N) : option (option N) :=
  match find_logical s id with None => Some None | Some l => v ← g_lheap s !! l; Some (Some (lv_label v)) end.
(* GeoManager.h:231 *)
Definition placed_count (s : gm) : N := N.of_nat (length (g_pmap s)).
(* GeoManager.h:238 *)
Definition registered_count (s : gm) : N := N.of_nat (length (g_lmap s)).
(* GeoManager.h:149: operator[] inserts a null pointer for an unknown index *)
Definition convert_index (s : gm) (i : N) : gm * option addr :=
  match sm_find i (g_pmap s) with
  | Some p => (s, p)
  | None => (set_pmap s (sm_insert i None (g_pmap s)), None)
  end.
(* GeoManager.h:152: operator[] inserts 0 for an unknown pointer *)
Definition convert_pointer (s : gm) (p : addr) : gm * N :=
  match g_v2i s !! p with
  | Some i => (s, i)
  | None => (set_v2i s (<[p := 0]> (g_v2i s)), 0)
  end.
(* NavStatePath.h:58-69, NavStateIndex.h:145-167: &gCompactPlacedVolBuffer[index] *)
Definition to_placed (s : gm) (i : N) : option addr :=
  '(g, n) ← g_buf s; if i <? n then Some (Slot g i) else None.
(* NavStatePath.h:82 *)
Definition to_index (s : gm) (p : addr) : option N := v ← g_pheap s !! p; Some (pv_id v).
(* PlacedVolume.h:153 *)
Definition daughters (s : gm) (p : addr) : option (list addr) :=
  v ← g_pheap s !! p; l ← g_lheap s !! pv_lv v; Some (lv_dau l).

(** * Closing *)
(* GeoManager.cpp:124-130; the buffer is number [g] with [n] slots.  The pairs of the map
   are handled in the order of the keys. *)
Fixpoint copy_loop (g n : N) (m : smap (option addr)) (h : gmap addr pvol) (conv : gmap addr addr)
    : option (gmap addr pvol * smap (option addr) * gmap addr addr) :=
  match m with
  | [] => Some (h, [], conv)
  | (i, p) :: r =>
      q ← p; v ← h !! q;
      if i <? n then
        '(h', r', c') ← copy_loop g n r (<[Slot g i := v]> h) (<[q := Slot g i]> conv);
        Some (h', (i, Some (Slot g i)) :: r', c')
      else None
  end.
(* GeoManager.cpp:133-139 *)
Definition old_to_new (conv : gmap addr addr) (p : addr) : addr := default p (conv !! p).
(* GeoManager.cpp:142-148 *)
Fixpoint daughters_loop (conv : gmap addr addr) (m : smap N) (h : gmap N lvol) : option (gmap N lvol) :=
  match m with
  | [] => Some h
  | (_, l) :: r =>
      v ← h !! l;
      daughters_loop conv r (<[l := LV (lv_id v) (lv_label v) (lv_shape v) (map (old_to_new conv) (lv_dau v))]> h)
  end.
(* GeoManager.cpp:154-184 *)
Definition convert_shape (conv : gmap addr addr) (u : shape) : shape :=
  match u with
  | Simple s => Simple s
  | Boolean op l r => Boolean op (old_to_new conv l) (old_to_new conv r)
  | Scaled p => Scaled (old_to_new conv p)
  end.
(* GeoManager.cpp:150-185 *)
Fixpoint shapes_loop (conv : gmap addr addr) (lh : gmap N lvol) (m : smap N) (h : gmap N shape) : option (gmap N shape) :=
  match m with
  | [] => Some h
  | (_, l) :: r =>
      v ← lh !! l; u ← h !! lv_shape v;
      shapes_loop conv lh r (<[lv_shape v := convert_shape conv u]> h)
  end.
(* GeoManager.cpp:70-190; the size check (:81-84) only prints a warning, it reads the volumes
   and the world *)
Definition compactify (s : gm) : option gm :=
  let n := placed_count s in                                                       (* :86 *)
  let g := g_gen s in
  '(h, pm, conv) ← copy_loop g n (g_pmap s) (g_pheap s) ∅;                         (* :110-130 *)
  lh ← daughters_loop conv (g_lmap s) (g_lheap s);                                 (* :142-148 *)
  uh ← shapes_loop conv lh (g_lmap s) (g_uheap s);                                 (* :150-185 *)
  Some (GM h lh uh pm (g_lmap s) (g_v2i s) (old_to_new conv <$> g_world s) (g_closed s)
           (g_pcount s) (g_lcount s) (Some (g, n)) (g + 1) (g_depth s) (g_total s)).
(* GeoManager.cpp:209-211 *)
Fixpoint index_loop (m : smap (option addr)) (v2i : gmap addr N) : gmap addr N :=
  match m with
  | [] => v2i
  | (i, p) :: r => index_loop r (match p with Some q => <[q := i]> v2i | None => v2i end)
  end.
(* GeoManager.cpp:192-215; a second call prints a message and goes on *)
Definition close (fuel : nat) (s : gm) : option gm :=
  w ← g_world s;
  d ← max_depth (daughters s) fuel w;
  n ← node_count (daughters s) fuel w;
  s2 ← compactify (set_v2i s (index_loop (g_pmap s) (g_v2i s)));
  Some (GM (g_pheap s2) (g_lheap s2) (g_uheap s2) (g_pmap s2) (g_lmap s2) (g_v2i s2) (g_world s2)
           true (g_pcount s2) (g_lcount s2) (g_buf s2) (g_gen s2) d n).

(* GeoManager.cpp:355-378: which addresses are in the freed buffer *)
Definition in_buffer (b : option (N * N)) (p : addr) : bool :=
  match b, p with Some (g, _), inr (g', _) => g =? g' | _, _ => false end.
(* GeoManager.cpp:355-378: the slots of the buffer are freed *)
Definition clear (s : gm) : gm :=
  GM (filter (λ kv, in_buffer (g_buf s) kv.1 = false) (g_pheap s)) (g_lheap s) (g_uheap s)
     [] [] ∅ None false 0 0 None (g_gen s) (g_depth s) 0.

(** * Histories *)
Inductive op :=
| NewU (u : N) (sh : shape)
| NewL (l label u : N)
| NewP (a label lv : N) (tr : T)
| DelL (l : N)
| DelP (a : N)
| PlaceD (l : N) (p : addr)
| SetWorld (p : addr)          (* GeoManager.h:127, with a valid pointer *)
| Close (fuel : nat)
| Clear
| ConvI (i : N)
| ConvP (p : addr).
Definition step (s : gm) (o : op) : option gm :=
  match o with
  | NewU u sh => new_unplaced s u sh
  | NewL l label u => new_logical s l label u
  | NewP a label lv tr => new_placed s a label lv tr
  | DelL l => del_logical s l
  | DelP a => del_placed s a
  | PlaceD l p => place_daughter s l p
  | SetWorld p => _ ← g_pheap s !! p; Some (set_world s (Some p))
  | Close fuel => close fuel s
  | Clear => Some (clear s)
  | ConvI i => Some (convert_index s i).1
  | ConvP p => Some (convert_pointer s p).1
  end.
Definition run (os : list op) : option gm := foldl (λ s o, s ← s; step s o) (Some gm_new) os.
End Manager.
Arguments pvol : clear implicits.
Arguments shape : clear implicits.
Arguments gm : clear implicits.
Arguments op : clear implicits.
Notation Obj a := (inl a : addr).
Notation Slot g i := (inr (g, i) : addr).
