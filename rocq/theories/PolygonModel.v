(** Planar polygons: VecGeom/volumes/PlanarPolygon.h.
    Points are pairs of real numbers.  The arrays of the class (fVertices with the slopes in z, fShiftedXJ, fShiftedYJ,
    fLengthSqr, fInvLengthSqr, fA, fB, fD) are one list of edges: [pg_edges] the first [fVertices.size()] entries,
    [pg_tail] the entries after them up to the size of the buffers.  Exact real arithmetic with [nz] for NonZero. *)
From Coq Require Import Reals Lra Lia Bool ZArith.
From stdpp Require Import base list option numbers tactics.
From Verif Require Import Real3 BoxModel AABBModel PlanesModel.
Import stdpp.list.
Local Open Scope R_scope.

(** PlanarPolygon.h:27-36: one entry of the arrays.  The edge runs from the previous vertex (J) to the vertex (I). *)
Record edge := Edge { e_x : R; e_y : R; e_slope : R; e_xj : R; e_yj : R; e_lsq : R; e_inv : R; e_a : R; e_b : R; e_d : R }.
(** PlanarPolygon.h:38-44 *)
Record polygon := Polygon { pg_edges : list edge; pg_tail : list edge; pg_convex : bool;
  pg_minx : R; pg_miny : R; pg_maxx : R; pg_maxy : R }.

(** The lists of next and of previous vertices: PlanarPolygon.h:393 [(i + 1) % N] and 104 [j = S - 1; j = i++] *)
Definition nexts {A} (l : list A) : list A := match l with [] => [] | a :: r => r ++ [a] end.
Definition prevs {A} (l : list A) : list A := match last l with None => [] | Some z => z :: removelast l end.

(** PlanarPolygon.h:387-398 *)
Definition orientation (pts : list (R * R)) : R :=
  foldl (λ area '(p1, p2), area + (fst p1 * snd p2 - snd p1 * fst p2)) 0 (zip pts (nexts pts)).
(** PlanarPolygon.h:91: [(i * inc + fNVertices) % fNVertices] in size_t, [inc] the int -1 or 1 converted *)
Definition vertex_index (inc : Z) (n i : Z) : Z := (((i * (inc mod 2 ^ 64)) mod 2 ^ 64 + n) mod 2 ^ 64) mod n.
(** PlanarPolygon.h:87-97: the stored order; [None] an index outside of the arrays *)
Definition stored (pts : list (R * R)) : option (list (R * R)) :=
  let inc := if rgtb (orientation pts) 0 then (-1)%Z else 1%Z in
  mapM (λ i, pts !! Z.to_nat (vertex_index inc (Z.of_nat (length pts)) (Z.of_nat i))) (seq 0 (length pts)).
(** PlanarPolygon.h:104-149, one vertex and the one before it *)
Definition mk_edge (pi pj : R * R) : edge :=
  let '(xi, yi) := pi in let '(xj, yj) := pj in
  let slope := (xj - xi) / nz (yj - yi) in
  let lsq := (xi - xj) * (xi - xj) + (yi - yj) * (yi - yj) in
  let a := - (yj - yi) in
  let b := xj - xi in
  let norm := 1 / R_sqrt.sqrt (a * a + b * b) in
  let a := a * norm in
  let b := b * norm in
  let d := - (a * xi + b * yi) in
  Edge xi yi slope xj yj lsq (1 / lsq) (fix1 a) (fix1 b) (fix1 d).
Definition mk_edges (vs : list (R * R)) : list edge := zip_with mk_edge vs (prevs vs).
(** PlanarPolygon.h:70-73 the size of the buffers *)
Definition buffer_size (kvs n : nat) : nat := (n / kvs + n mod kvs) * kvs.
(** PlanarPolygon.h:151-162: [None] when there are no vertices *)
Definition mk_tail (kvs : nat) (es : list edge) : option (list edge) :=
  let n := length es in
  mapM (λ i, es !! (i mod n)%nat) (seq n (buffer_size kvs n - n)).
(** PlanarPolygon.h:419-437 *)
Definition turn_sign (p q r : R * R) : Z :=
  let p1 := (fst q - fst p, snd q - snd p) in
  let p2 := (fst r - fst q, snd r - snd q) in
  if rltb (fst p1 * snd p2 - snd p1 * fst p2) 0 then (-1)%Z else 1%Z.
Definition calc_convexity (vs : list (R * R)) : bool :=
  let counter := foldl (λ c '(p, (q, r)), (c + turn_sign p q r)%Z) 0%Z (zip vs (zip (nexts vs) (nexts (nexts vs)))) in
  Z.eqb (Z.abs counter) (Z.of_nat (length vs)).
(** PlanarPolygon.h:400-416 *)
Definition pg_area (es : list edge) : R :=
  / 2 * foldl (λ area e, area + (e_x e * e_yj e - e_y e * e_xj e)) 0 es.
Section Init.
Variable kvs : nat.  (* lanes of the vector type: PlanarPolygon.h:71 *)
Variable inf : R.    (* VecGeom/base/Math.h:41 kInfLength *)
(** PlanarPolygon.h:55-62 and 64-173: [None] for an empty polygon, an index outside of the arrays or the exception of 169-171 *)
Definition pg_init (pts : list (R * R)) : option polygon :=
  if decide (pts = []) then None else
  vs ← stored pts;
  let es := mk_edges vs in
  tail ← mk_tail kvs es;
  if rltb (pg_area es) 0 then None
  else Some (Polygon es tail (calc_convexity vs)
    (foldl (λ m v, Rmin (fst v) m) inf vs) (foldl (λ m v, Rmin (snd v) m) inf vs)
    (foldl (λ m v, Rmax (fst v) m) (- inf) vs) (foldl (λ m v, Rmax (snd v) m) (- inf) vs)).
(** The copy constructor of the class copies SOA3D with VecGeom/base/SOA3D.h:191-204: the entries beyond the size are those of
    fresh memory, [junk] (their slope and vertex; the other arrays are copied in full) *)
Definition with_junk (e : edge) (j : R * R * R) : edge :=
  let '(x, y, s) := j in Edge x y s (e_xj e) (e_yj e) (e_lsq e) (e_inv e) (e_a e) (e_b e) (e_d e).
Definition pg_copy (junk : list (R * R * R)) (P : polygon) : polygon :=
  Polygon (pg_edges P) (zip_with with_junk (pg_tail P) junk) (pg_convex P) (pg_minx P) (pg_miny P) (pg_maxx P) (pg_maxy P).
End Init.

(** PlanarPolygon.h:193-238, scalar *)
Definition on_segment (e : edge) (px py : R) : bool :=
  let pymay := py - e_yj e in
  let pxmax := px - e_xj e in
  let cross := pymay * (e_x e - e_xj e) - pxmax * (e_y e - e_yj e) in
  let collinear := rltb (Rabs cross) (/ 1000000000) in
  if negb collinear then false
  else let dotproduct := pxmax * (e_x e - e_xj e) + pymay * (e_y e - e_yj e) in
  rgeb dotproduct (- kTolerance) && rleb dotproduct (kTolerance + e_lsq e).

(** PlanarPolygon.h:248, 292, 309, 451, 519, 536 *)
Definition dseg (e : edge) (px py : R) : R := - (e_a e * px + e_b e * py + e_d e).
Section Queries.
Variable inf : R.   (* VecGeom/base/Math.h:41 kInfLength *)
Variable P : polygon.
(** PlanarPolygon.h:246-250: [distance] takes [dseg] where it is larger *)
Definition far_seg (px py : R) : R := foldl (λ m e, if rgtb (dseg e px py) m then dseg e px py else m) (- inf) (pg_edges P).
(** PlanarPolygon.h:449-453 with Max *)
Definition max_seg (px py : R) : R := foldl (λ m e, Rmax (dseg e px py) m) (- inf) (pg_edges P).
(** PlanarPolygon.h:240-253, the template *)
Definition contains_convex_t (px py : R) : bool := rltb (far_seg px py) 0.
(** PlanarPolygon.h:444-455, the scalar specialisation *)
Definition contains_convex (px py : R) : bool := rltb (max_seg px py) 0.
(** PlanarPolygon.h:283-298, the template: the second assignment covers the first *)
Definition inside_convex_t (px py : R) : inside :=
  let distance := far_seg px py in
  let r := kOutside in
  let r := if rltb distance (- kTolerance) then kInside else r in
  if rltb distance kTolerance then kSurface else r.
(** PlanarPolygon.h:511-525, the scalar specialisation *)
Definition inside_convex (px py : R) : inside :=
  let distance := max_seg px py in
  if rgtb distance kTolerance then kOutside
  else if rltb distance (- kTolerance) then kInside
  else kSurface.
(** PlanarPolygon.h:300-314, the template: the sign is turned in every round *)
Definition safety_convex_t (inside : bool) (px py : R) : R :=
  foldl (λ m e, let m := if rgtb (dseg e px py) m then dseg e px py else m in if inside then - m else m) (- inf) (pg_edges P).
(** PlanarPolygon.h:527-541, the scalar specialisation *)
Definition safety_convex (inside : bool) (px py : R) : R :=
  let distance := max_seg px py in if inside then distance * -1 else distance.

(** PlanarPolygon.h:267-279: does the edge flip the answer? *)
Definition flips (px py : R) (e : edge) : bool :=
  xorb (rgtb (e_y e) py) (rgtb (e_yj e) py) && rltb px (e_slope e * (py - e_y e) + e_x e).
(** PlanarPolygon.h:255-281, the template *)
Definition contains (px py : R) : bool := foldl (λ r e, xorb (flips px py e) r) false (pg_edges P).
(** PlanarPolygon.h:457-509, the scalar specialisation with [kvs] lanes: blocks, reduction and the rest *)
Fixpoint contains_blocks (kvs blocks : nat) (px py : R) (es : list edge) (result : list bool) : list bool :=
  match blocks with
  | O => result
  | S b => contains_blocks kvs b px py (drop kvs es) (zip_with xorb result (map (flips px py) (take kvs es)))
  end.
Definition contains_lanes (kvs : nat) (px py : R) : bool :=
  let es := pg_edges P in
  let n := length es in
  let result := contains_blocks kvs (n / kvs) px py es (replicate kvs false) in
  let reduction := foldl (λ r (b : bool), if b then negb r else r) false result in
  foldl (λ r e, xorb r (flips px py e)) reduction (drop (n - n mod kvs) es).

(** PlanarPolygon.h:331-365: the squared distance to one edge, by the stored inverse *)
Definition edge_ssq_t (px py : R) (e : edge) : R :=
  let dx := e_xj e - e_x e in
  let dy := e_yj e - e_y e in
  let dpx := px - e_x e in
  let dpy := py - e_y e in
  let u := (dpx * dx + dpy * dy) * e_inv e in
  let '(dpx, dpy) := if rgtb u 1 then (px - e_xj e, py - e_yj e)
    else if rgeb u 0 then (dpx - u * dx, dpy - u * dy) else (dpx, dpy) in
  dpx * dpx + dpy * dpy.
(** PlanarPolygon.h:316-379, the template: the answer and the closest edge (-1 for none); [i] is the index of the first edge *)
Fixpoint safety_sqr_loop (px py : R) (es : list edge) (i : Z) (safe : R) (seg : Z) : R * Z :=
  match es with
  | [] => (safe, seg)
  | e :: es =>
    let ssq := edge_ssq_t px py e in
    let '(safe, seg) := if rltb ssq safe then (ssq, i) else (safe, seg) in
    if rltb (Rabs safe) (kTolerance * kTolerance) then (0, seg)
    else safety_sqr_loop px py es (i + 1) safe seg
  end.
Definition safety_sqr_t (px py : R) : R * Z := safety_sqr_loop px py (pg_edges P) 0 (10 ^ 30) (-1).
(** PlanarPolygon.h:561-595: the squared distance to one edge, one lane *)
Definition edge_ssq (px py : R) (e : edge) : R :=
  let dx := e_xj e - e_x e in
  let dy := e_yj e - e_y e in
  let dpx := px - e_x e in
  let dpy := py - e_y e in
  let lsq := dx * dx + dy * dy in
  let u := dpx * dx + dpy * dy in
  let cond1 := rgtb u lsq in
  let cond2 := negb cond1 && rgeb u 0 in
  let '(dpx, dpy) := if cond1 then (px - e_xj e, py - e_yj e) else (dpx, dpy) in
  let '(dpx, dpy) := if cond2 then (dpx - u * dx * (1 / lsq), dpy - u * dy * (1 / lsq)) else (dpx, dpy) in
  dpx * dpx + dpy * dpy.
(** PlanarPolygon.h:607-613: the lanes one after the other *)
Fixpoint safety_lanes (px py : R) (es : list edge) (i : Z) (safe : R) (seg : Z) : R * Z :=
  match es with
  | [] => (safe, seg)
  | e :: es =>
    let saftmp := edge_ssq px py e in
    let '(safe, seg) := if rltb saftmp safe then (saftmp, i) else (safe, seg) in
    safety_lanes px py es (i + 1) safe seg
  end.
(** PlanarPolygon.h:560-618: [blocks] rounds over the buffers; [None] a read beyond their end *)
Fixpoint safety_blocks (kvs blocks : nat) (px py : R) (es : list edge) (i : Z) (safe : R) (seg : Z) : option (R * Z) :=
  match blocks with
  | O => Some (safe, seg)
  | S b =>
    if (length es <? kvs)%nat then None else
    let '(safe, seg) := safety_lanes px py (take kvs es) i safe seg in
    if rltb (Rabs safe) (kTolerance * kTolerance) then Some (0, seg)
    else safety_blocks kvs b px py (drop kvs es) (i + Z.of_nat kvs) safe seg
  end.
(** PlanarPolygon.h:543-621, the scalar specialisation: rounds for i = 0, kvs, .. below the number of vertices *)
Definition safety_sqr (kvs : nat) (px py : R) : option (R * Z) :=
  safety_blocks kvs ((length (pg_edges P) + kvs - 1) / kvs) px py (pg_edges P ++ pg_tail P) 0 (10 ^ 30) (-1).
End Queries.
