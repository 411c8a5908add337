(** Model of the voxel hash map: VecGeom/base/FlatVoxelHashMap.h, and of its use for point
    location: source/FlatVoxelManager.cpp, VecGeom/navigation/VoxelLevelLocator.h.
    [rnd] stands for the rounding of single precision arithmetic.  The hash table is a finite
    map; sizes are exact.  [None] is undefined behaviour. *)
From stdpp Require Import gmap list list_numbers option.
From Coq Require Import Reals ZArith NArith.
From Verif Require Import Real3 AABBModel.

(** Conversion of a real to an integer, towards zero. *)
Definition rtrunc (x : R) : Z := if rleb 0 x then Int_part x else (- Int_part (- x))%Z.
Definition int_ok (z : Z) : bool := ((- 2 ^ 31 <=? z) && (z <? 2 ^ 31))%Z.
Definition to_int (z : Z) : option Z := if int_ok z then Some z else None.

(* FlatVoxelHashMap.h:249-263 *)
Record grid := Grid { g_nx : Z; g_ny : Z; g_nz : Z; g_lo : v3; g_delta : v3; g_inv : v3 }.

Section Round.
Variable rnd : R → R.
Definition vrnd (v : v3) : v3 := V3 (rnd (vx v)) (rnd (vy v)) (rnd (vz v)).
(* FlatVoxelHashMap.h:21-33; the divisions are rounded once *)
Definition mk_grid (lower length : v3) (nx ny nz : Z) : grid :=
  let d := V3 (rnd (vx length / IZR nx)) (rnd (vy length / IZR ny)) (rnd (vz length / IZR nz)) in
  Grid nx ny nz lower d (V3 (rnd (1 / vx d)) (rnd (1 / vy d)) (rnd (1 / vz d))).
(* FlatVoxelHashMap.h:152-154, 161-163: one coordinate; the argument is converted to float *)
Definition cell1 (x lo inv : R) : option Z := to_int (rtrunc (rnd (rnd (rnd x - lo) * inv))).
(* FlatVoxelHashMap.h:150-155 *)
Definition cells (g : grid) (p : v3) : option (Z * Z * Z) :=
  kx ← cell1 (vx p) (vx (g_lo g)) (vx (g_inv g));
  ky ← cell1 (vy p) (vy (g_lo g)) (vy (g_inv g));
  kz ← cell1 (vz p) (vz (g_lo g)) (vz (g_inv g));
  Some (kx, ky, kz).
(* FlatVoxelHashMap.h:157; evaluated in int *)
Definition key_of (g : grid) (c : Z * Z * Z) : option Z :=
  let '(kx, ky, kz) := c in
  a ← to_int (kz * g_ny g)%Z; b ← to_int (ky + a)%Z; c ← to_int (g_nx g * b)%Z; to_int (kx + c)%Z.
(* FlatVoxelHashMap.h:159-174, 176 *)
Definition get_key (g : grid) (p : v3) : option Z := c ← cells g p; key_of g c.
(* FlatVoxelHashMap.h:189-195; division truncates *)
Definition key_to_cell (g : grid) (key : Z) : option (Z * Z * Z) :=
  n ← to_int (g_nx g * g_ny g)%Z;
  if (n =? 0)%Z || (g_nx g =? 0)%Z then None else
  let kz := Z.quot key n in
  let ky := Z.quot (key - kz * g_nx g * g_ny g) (g_nx g) in
  let kx := (key - kz * g_nx g * g_ny g - ky * g_nx g)%Z in
  Some (kx, ky, kz).
(* FlatVoxelHashMap.h:198-204; rounding left out *)
Definition key_to_pos (g : grid) (key : Z) : option v3 :=
  '(kx, ky, kz) ← key_to_cell g key;
  Some (V3 (vx (g_lo g) + IZR kx * vx (g_delta g) * (3 / 2)) (vy (g_lo g) + IZR ky * vy (g_delta g) * (3 / 2))
           (vz (g_lo g) + IZR kz * vz (g_delta g) * (3 / 2))).
(* FlatVoxelHashMap.h:207-214 *)
Definition extent (g : grid) (key : Z) : option aabb :=
  '(kx, ky, kz) ← key_to_cell g key;
  let lower := V3 (rnd (vx (g_lo g) + rnd (IZR kx * vx (g_delta g)))) (rnd (vy (g_lo g) + rnd (IZR ky * vy (g_delta g))))
                  (rnd (vz (g_lo g) + rnd (IZR kz * vz (g_delta g)))) in
  Some (Box lower (vrnd (vadd lower (g_delta g)))).

(** * The map.  [ScalarProperties = false]: a key has a start index and a count. *)
Section Props.
Context {P : Type}.
(* FlatVoxelHashMap.h:265, 330-333 *)
Record vmap := Vm { v_map : gmap Z (nat * nat); v_props : list P; v_last : Z }.
Definition vm_new : vmap := Vm ∅ [] (-1).
(* FlatVoxelHashMap.h:48-69, 280-284, 297-301; appending through an end iterator is undefined *)
Definition vm_add (s : vmap) (key : Z) (p : P) : option vmap :=
  if (key =? v_last s)%Z then
    '(o, n) ← v_map s !! key; Some (Vm (<[key := (o, S n)]> (v_map s)) (v_props s ++ [p]) (v_last s))
  else Some (Vm (<[key := (length (v_props s), 1%nat)]> (v_map s)) (v_props s ++ [p]) key).
Definition vm_add_all (s : vmap) (h : list (Z * P)) : option vmap := foldl (λ os e, s ← os; vm_add s e.1 e.2) (Some s) h.
(* FlatVoxelHashMap.h:178-187, 304-315: the properties from the start index on *)
Definition vm_get (s : vmap) (key : Z) : list P :=
  match v_map s !! key with Some (o, n) => take n (drop o (v_props s)) | None => [] end.
(* FlatVoxelHashMap.h:124-126 *)
Definition vm_occupied (s : vmap) (key : Z) : bool := bool_decide (is_Some (v_map s !! key)).
(* FlatVoxelHashMap.h:239-243 *)
Definition vm_clear (s : vmap) : vmap := Vm ∅ [] (v_last s).
(* FlatVoxelHashMap.h:246 *)
Definition vm_size (s : vmap) : nat := size (v_map s).

(** [ScalarProperties = true]: the property is the value of the key. *)
Record smap := Sm { sc_map : gmap Z P; sc_last : Z }.
(* FlatVoxelHashMap.h:48-69, 272-276, 287-293 *)
Definition sm_add (s : smap) (key : Z) (p : P) : smap :=
  if (key =? sc_last s)%Z then s else Sm (<[key := p]> (sc_map s)) key.
(* FlatVoxelHashMap.h:318-329 *)
Definition sm_get (s : smap) (key : Z) : list P := match sc_map s !! key with Some p => [p] | None => [] end.
End Props.
Arguments vmap P : clear implicits.
Arguments smap P : clear implicits.

(* FlatVoxelHashMap.h:90-110: cells of one box *)
Definition box_cells (g : grid) (b : aabb) : option (list (Z * Z * Z)) :=
  '(lx, ly, lz) ← cells g (bmin b);
  '(ux, uy, uz) ← cells g (bmax b);
  let range l u := seqZ l (u - l + 1) in
  Some (kx ← range (Z.max lx 0) (Z.min ux (g_nx g - 1));
        ky ← range (Z.max ly 0) (Z.min uy (g_ny g - 1));
        kz ← range (Z.max lz 0) (Z.min uz (g_nz g - 1)); [(kx, ky, kz)]).
(* FlatVoxelHashMap.h:86-111 *)
Definition box_keys (g : grid) (ib : nat * aabb) : option (list (Z * nat)) :=
  cs ← box_cells g ib.2; mapM (λ c, k ← key_of g c; Some (k, ib.1)) cs.
(* FlatVoxelHashMap.h:73-121; [srt] is std::sort *)
Definition mark_boxes (srt : list (Z * nat) → list (Z * nat)) (g : grid) (s : vmap nat) (boxes : list aabb) : option (vmap nat) :=
  ks ← mapM (box_keys g) (imap pair boxes);
  vm_add_all s (srt (mjoin ks)).

(** * Location voxels *)
(* VolumeUtilities.h:1041-1067 *)
Definition boxes_meet (a b : aabb) : bool :=
  negb (rltb (vx (bmax a)) (vx (bmin b))) && negb (rgtb (vx (bmin a)) (vx (bmax b)))
  && negb (rltb (vy (bmax a)) (vy (bmin b))) && negb (rgtb (vy (bmin a)) (vy (bmax b)))
  && negb (rltb (vz (bmax a)) (vz (bmin b))) && negb (rgtb (vz (bmin a)) (vz (bmax b))).
(* FlatVoxelManager.cpp:503-520: boxes meeting the voxel of key [k] *)
Definition voxel_cands (g : grid) (boxes : list aabb) (k : Z) : option (list nat) :=
  e ← extent g k; Some (fst <$> filter (λ ib, boxes_meet e ib.2 = true) (imap pair boxes)).
(* FlatVoxelManager.cpp:495-502: the range of indices task [t] of [m] works on *)
Definition chunk (s m t : nat) : nat * nat :=
  let c := (s / m)%nat in
  ((t * c)%nat, ((t + 1) * c + (if (t =? m - 1)%nat then s mod m else 0))%nat).
(* FlatVoxelManager.cpp:488-525: entry [i] of the candidate lists after all tasks finished *)
Definition collect {A} (s m : nat) (cand : nat → list A) (i : nat) : list A :=
  t ← seq 0 m; if (((chunk s m t).1 <=? i) && (i <? (chunk s m t).2))%nat then cand i else [].
(* FlatVoxelManager.cpp:456-538; [m] is the number of hardware threads *)
Definition build_locate (m : nat) (lower upper : v3) (boxes : list aabb) : option (grid * vmap nat) :=
  let g := mk_grid lower (vscale (1005 / 1000) (vsub upper lower)) 10 10 10 in
  let n := 1000%nat in
  cs ← mapM (λ i, voxel_cands g boxes (Z.of_nat i)) (seq 0 n);
  s ← vm_add_all vm_new (i ← seq 0 n; c ← collect n m (λ i, default [] (cs !! i)) i; [(Z.of_nat i, c)]);
  Some (g, s).
(* BoxImplementation.h:420-436 *)
Definition ab_contains (b : aabb) (p : v3) : bool :=
  rltb (vx (bmin b)) (vx p) && rgtb (vx (bmax b)) (vx p) && rltb (vy (bmin b)) (vy p) && rgtb (vy (bmax b)) (vy p)
  && rltb (vz (bmin b)) (vz p) && rgtb (vz (bmax b)) (vz p).
(* VoxelLevelLocator.h:55-77; [accept] is the candidate check, exclusion included *)
Fixpoint scan_cands (boxes : list aabb) (dau : list N) (p : v3) (accept : N → option v3) (cs : list nat) : option (option (N * v3)) :=
  match cs with
  | [] => Some None
  | i :: r =>
    v ← dau !! i; b ← boxes !! i;
    if ab_contains b p then
      match accept v with Some q => Some (Some (v, q)) | None => scan_cands boxes dau p accept r end
    else scan_cands boxes dau p accept r
  end.
(* VoxelLevelLocator.h:35-80 *)
Definition voxel_locate (gs : grid * vmap nat) (boxes : list aabb) (dau : list N) (p : v3) (accept : N → option v3) : option (option (N * v3)) :=
  k ← get_key gs.1 p; scan_cands boxes dau p accept (vm_get gs.2 k).
End Round.
Arguments vmap P : clear implicits.
Arguments smap P : clear implicits.
