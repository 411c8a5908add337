(** Model of polycones: VecGeom/volumes/PolyconeStruct.h, VecGeom/volumes/kernel/PolyconeImplementation.h,
    VecGeom/volumes/UnplacedPolycone.h and source/UnplacedPolycone.cpp; scalar instance with exact arithmetic.  [None] is
    undefined behaviour (an access outside a vector).  The phi section is abstract as in ConeModel.v; all sections get the
    same one.  Error messages and the leak of the section solids are left out.  The ray distances of the sections are
    parameters. *)
From Coq Require Import Reals Lra Lia Bool.
From stdpp Require Import base list option numbers.
From Verif Require Import Real3 BoxModel ConeModel.
Import stdpp.list.
Local Open Scope R_scope.

(** One entry of the arrays zPlane, rInner, rOuter: PolyconeStruct.h:147-149 *)
Record plane := Plane { pl_z : R; pl_rmin : R; pl_rmax : R }.
(* VecGeom/volumes/PolyconeSection.h:28-31; fTubular is never used *)
Record section := Section_ { sec_shift : R; sec_solid : cone; sec_convex : bool }.
(* PolyconeStruct.h:26-37; fPhiWedge and fStartPhi are left out *)
Record polycone := Polycone {
  pc_equal_rmax : bool; pc_continuity : bool; pc_convexity : bool;
  pc_dphi : R; pc_nz : nat; pc_sections : list section; pc_zs : list R; pc_orig : list plane; pc_orig_dphi : R
}.

(* PolyconeStruct.h:158-170 *)
Definition oriented (pls : list plane) : list plane :=
  match head pls, last pls with
  | Some a, Some b => if rgtb (pl_z a) (pl_z b) then reverse pls else pls
  | _, _ => pls
  end.

(** PolyconeStruct.h:43-71; rOut, rIn and zPl are built in step, so they are one list of planes.  [go] runs from j = 1. *)
Fixpoint doubled_rest (pls : list plane) : list plane :=
  match pls with
  | [] => []
  | [q] => [q]
  | q :: (r :: _) as rest =>
    (if negb (reqb (pl_z q) (pl_z r)) || negb (reqb (pl_rmax q) (pl_rmax r)) then [q; q] else [q]) ++ doubled_rest rest
  end.
Definition doubled (pls : list plane) : list plane := match pls with [] => [] | a :: rest => a :: doubled_rest rest end.
(* PolyconeStruct.h:73-78 *)
Definition evened (l : list plane) : list plane :=
  if Nat.odd (length l) then match last l with Some a => l ++ [a] | None => l end else l.
(** PolyconeStruct.h:88-101; newZPlane, newROuter and newRInner are one list of pairs *)
Fixpoint paired (l : list plane) : list (plane * plane) :=
  match l with
  | a :: b :: rest => if negb (reqb (pl_z a) (pl_z b)) then (a, b) :: paired rest else paired rest
  | _ => []
  end.
Definition reduced (pls : list plane) : list (plane * plane) := paired (evened (doubled pls)).
(* PolyconeStruct.h:114-125 *)
Fixpoint continuous_rmax (l : list (plane * plane)) : bool :=
  match l with
  | (_, b) :: ((a, _) :: _) as rest => reqb (pl_rmax b) (pl_rmax a) && continuous_rmax rest
  | _ => true
  end.
(* PolyconeStruct.h:128-141 *)
Definition slope (ab : plane * plane) : R := (pl_rmax ab.2 - pl_rmax ab.1) / (pl_z ab.2 - pl_z ab.1).
Fixpoint continuous_slope (start : R) (l : list (plane * plane)) : bool :=
  match l with
  | [] => true
  | ab :: rest => rleb (slope ab) start && continuous_slope (slope ab) rest
  end.
(* PolyconeStruct.h:40-111 *)
Definition check_continuity (inf : R) (l : list (plane * plane)) : bool := continuous_rmax l && continuous_slope inf l.
(* PolyconeStruct.h:192-199; newROuter and newRInner in order *)
Definition flat (l : list (plane * plane)) : list plane := l ≫= λ ab, [ab.1; ab.2].
Fixpoint equal_rmax (start : R) (l : list plane) : bool :=
  match l with [] => true | a :: rest => reqb start (pl_rmax a) && equal_rmax (pl_rmax a) rest end.
Definition no_hole (l : list plane) : bool := forallb (λ a, reqb (pl_rmin a) 0) l.

(* PolyconeStruct.h:188 and 203 *)
Definition rmax_extent (r0 : R) (pls : list plane) : R :=
  foldl (λ m a, if rgtb (pl_rmax a) m then pl_rmax a else m) r0 pls.
(** PolyconeStruct.h:219-277: one step of the loop for i > 0; [pos] is dirZ > 0, [prev] holds prevZ, prevRmin and
    prevRmax, the vectors are fZs and fSections *)
Definition init_step (pos : bool) (rext dphi : R) (w : wedge_ops) (prev a : plane) (zs : list R) (secs : list section) :
  option (list R * list section) :=
  if (rgtb (pl_z a) (pl_z prev + kTolerance) && pos) || (rltb (pl_z a) (pl_z prev - kTolerance) && negb pos) then
    let dz := (pl_z a - pl_z prev) / 2 in
    let solid := mk_cone (pl_rmin prev) (pl_rmax prev) (pl_rmin a) (pl_rmax a) dz dphi w in
    z0 ← last zs;
    let shift := z0 + 5 / 10 * (pl_z a - z0) in
    let convex := negb (rltb (pl_rmax a) (pl_rmax prev) || rltb (pl_rmax a) rext || rltb (pl_rmax prev) rext) in
    Some (zs ++ [pl_z a], secs ++ [Section_ shift solid convex])
  else Some (zs, secs).
Fixpoint init_loop (pos : bool) (rext dphi : R) (w : wedge_ops) (prev : plane) (rest : list plane) (zs : list R)
  (secs : list section) : option (list R * list section) :=
  match rest with
  | [] => Some (zs, secs)
  | a :: rest' =>
    '(zs', secs') ← init_step pos rext dphi w prev a zs secs;
    init_loop pos rext dphi w a rest' zs' secs'
  end.
(* PolyconeStruct.h:371-389 and 173-176: fDeltaPhi, which keeps its value if dPhi <= 0 is not also caught by 173 *)
Definition checked_delta (phiTotal : R) : R :=
  if rleb phiTotal 0 || rgtb phiTotal (2 * PI - kTolerance) then 2 * PI
  else if rgeb phiTotal (2 * PI - 5 / 10 * / 1000000000) then 2 * PI else phiTotal.
(** PolyconeStruct.h:144-291; [pc] is the object before the call (the vectors are appended to, they are not cleared) *)
Definition init (inf : R) (w : wedge_ops) (pc : polycone) (phiTotal : R) (pls : list plane) : option polycone :=
  let l := oriented pls in
  match l with
  | a0 :: a1 :: rest =>
    match reduced l with
    | [] => None
    | ((b0, b1) :: _) as red =>
      let rext := rmax_extent (pl_rmax a0) (a1 :: rest) in
      let pos := negb (rltb (pl_z a1) (pl_z a0)) in
      '(zs, secs) ← init_loop pos rext phiTotal w a0 (a1 :: rest) (pc_zs pc ++ [pl_z a0]) (pc_sections pc);
      Some (Polycone (pc_equal_rmax pc && equal_rmax (pl_rmax b0) (tail (flat red)))
                     (pc_continuity pc && check_continuity inf red)
                     (pc_convexity pc && no_hole (flat red))
                     (checked_delta phiTotal) (length pls) secs zs l phiTotal)
    end
  | _ => None
  end.
(** The object before Init: UnplacedPolycone.h:83-85 sets the flags, the vectors are empty *)
Definition blank : polycone := Polycone true true true 0 0 [] [] [] 0.
(* UnplacedPolycone.h:79-89; ComputeBBox is left out *)
Definition construct (inf : R) (w : wedge_ops) (phiTotal : R) (pls : list plane) : option polycone :=
  init inf w blank phiTotal pls.
(* UnplacedPolycone.cpp:169-187 *)
Definition reset (inf : R) (w : wedge_ops) (pc : polycone) : option polycone := init inf w pc (pc_orig_dphi pc) (pc_orig pc).
(* UnplacedPolycone.cpp:1012-1029 *)
Definition detect_convexity (pc : polycone) : bool :=
  if pc_convexity pc then
    if pc_equal_rmax pc && (rleb (pc_dphi pc) PI || reqb (pc_dphi pc) (2 * PI)) then true
    else if rleb (pc_dphi pc) PI || reqb (pc_dphi pc) (2 * PI) then pc_continuity pc else false
  else false.
(* UnplacedPolycone.h:142-150 *)
Definition capacity (pc : polycone) : R := foldl (λ s sec, s + cone_capacity (sec_solid sec)) 0 (pc_sections pc).
(** UnplacedPolycone.cpp:42-109 for Nz >= 2: either a cone (51-60) or a polycone of some type.  M_PI and kPi are the same
    number; the switch VECGEOM_NO_SPECIALIZATION is off. *)
Inductive made := MadeCone (c : cone) | MadePolycone (t : cone_type) (pc : polycone).
Definition maker (inf : R) (w : wedge_ops) (dphi : R) (pls : list plane) : option made :=
  match pls with
  | [a; b] => Some (MadeCone (mk_cone (pl_rmin a) (pl_rmax a) (pl_rmin b) (pl_rmax b) (Rabs (pl_z b - pl_z a) / 2) dphi w))
  | _ =>
    let solid := forallb (λ a, rleb (pl_rmin a) 0) pls in
    let hollow := forallb (λ a, rgtb (pl_rmin a) 0) pls in
    let mk t d := MadePolycone t <$> construct inf w d pls in
    if solid && rgeb dphi (2 * PI) then mk NonHollowCone (2 * PI)
    else if solid && reqb dphi PI then mk NonHollowSector dphi
    else if hollow && rgeb dphi (2 * PI) then mk HollowCone (2 * PI)
    else if hollow && reqb dphi PI then mk HollowSector dphi
    else mk UniversalCone dphi
  end.

(* PolyconeStruct.h:307-310, from index [i] on *)
Fixpoint scan_sections (z : R) (i : Z) (zs : list R) (secs : list section) : option Z :=
  match secs with
  | [] => Some (-2)%Z
  | _ :: ss =>
    match zs with
    | a :: (b :: _) as r => if rgeb z a && rleb z b then Some i else scan_sections z (i + 1)%Z r ss
    | _ => None
    end
  end.
(* PolyconeStruct.h:302-311 *)
Definition section_index (pc : polycone) (z : R) : option Z :=
  z0 ← head (pc_zs pc);
  if rltb z z0 then Some (-1)%Z else scan_sections z 0 (pc_zs pc) (pc_sections pc).
(* PolyconeStruct.h:323 *)
Definition get_section (pc : polycone) (i : Z) : option section :=
  if (i <? 0)%Z then None else pc_sections pc !! Z.to_nat i.
(* PolyconeStruct.h:299 *)
Definition nsections (pc : polycone) : Z := Z.of_nat (length (pc_sections pc)).
(* PolyconeStruct.h:326-334 and 337-345; the assertions are not modelled *)
Definition rmin_at_plane (pc : polycone) (i : Z) : option R :=
  if (i =? nsections pc)%Z then sec ← get_section pc (i - 1); Some (k_rmin2 (sec_solid sec))
  else sec ← get_section pc i; Some (k_rmin1 (sec_solid sec)).
Definition rmax_at_plane (pc : polycone) (i : Z) : option R :=
  if (i =? nsections pc)%Z then sec ← get_section pc (i - 1); Some (k_rmax2 (sec_solid sec))
  else sec ← get_section pc i; Some (k_rmax1 (sec_solid sec)).
(* PolyconeStruct.h:348-352 *)
Definition z_at_plane (pc : polycone) (i : nat) : option R := pc_zs pc !! i.
(* PolyconeImplementation.h:58 *)
Definition shifted (s : section) (p : v3) : v3 := vsub p (V3 0 0 (sec_shift s)).

(* PolyconeImplementation.h:43-67 *)
Definition section_kernel (t : cone_type) (fi : bool) (pc : polycone) (i : Z) (p : v3) : option (bool * bool) :=
  if (i <? 0)%Z then Some (false, true)
  else sec ← get_section pc i; Some (cone_kernel t fi (sec_solid sec) (shifted sec p)).
(** PolyconeImplementation.h:96-154: completelyInside, completelyOutside, both initialised to false by the callers *)
Definition poly_kernel (t : cone_type) (fi : bool) (pc : polycone) (p : v3) : option (bool * bool) :=
  low ← section_index pc (vz p - kTolerance);
  high ← section_index pc (vz p + kTolerance);
  if ((low <? 0) && (high <? 0))%Z then Some (false, true) else
  if ((low <? 0) && (high =? 0))%Z then section_kernel t fi pc 0 p else
  if ((high <? 0) && (low =? nsections pc - 1))%Z then section_kernel t fi pc (nsections pc - 1) p else
  if ((0 <=? low) && (0 <=? high))%Z then
    if (low =? high)%Z then section_kernel t fi pc low p else
    '(inL, outL) ← section_kernel t fi pc low p;
    '(inH, outH) ← section_kernel t fi pc high p;
    if (negb inL && negb outL) && (negb inH && negb outH) then Some (true, false)
    else if outL && outH then Some (false, true)
    else Some (false, false)
  else Some (false, false).
(* PolyconeImplementation.h:70-77 *)
Definition poly_contains (t : cone_type) (pc : polycone) (p : v3) : option bool :=
  '(_, out) ← poly_kernel t false pc p; Some (negb out).
(* PolyconeImplementation.h:82-93 *)
Definition poly_inside (t : cone_type) (pc : polycone) (p : v3) : option inside :=
  '(inn, out) ← poly_kernel t true pc p;
  Some (if (inn : bool) then kInside else if (out : bool) then kOutside else kSurface).

(** PolyconeImplementation.h:381-394 (going right) and 399-411 (going left): [l] holds fZs[i] and section i in the order of
    the loop, [dist] is the dz of the loop.  SafetyToOut has the same two loops (453-463 and 467-477). *)
Fixpoint safety_loop (t : cone_type) (p : v3) (dist : R → R) (l : list (R * section)) (m : R) : R :=
  match l with
  | [] => m
  | (z, sec) :: rest =>
    if rgeb (dist z) m then m else
    let s := cone_safety_in t (sec_solid sec) (shifted sec p) in
    safety_loop t p dist rest (if rltb s m then s else m)
  end.
(** PolyconeImplementation.h:379-412 and 452-478 *)
Definition both_ways (t : cone_type) (pc : polycone) (i : nat) (p : v3) (m : R) : option R :=
  zb ← pc_zs pc !! (i + 1)%nat;
  let m := safety_loop t p (λ z, z - zb) (zip (drop (i + 1) (pc_zs pc)) (drop (i + 1) (pc_sections pc))) m in
  if (i =? 0)%nat then Some m else
  zl ← pc_zs pc !! (i - 1)%nat;
  Some (safety_loop t p (λ z, zl - z) (reverse (zip (take i (pc_zs pc)) (take i (pc_sections pc)))) m).
(* PolyconeImplementation.h:349-416 *)
Definition poly_safety_in (t : cone_type) (pc : polycone) (p : v3) : option R :=
  index ← section_index pc (vz p);
  let needZ := (index <? 0)%Z in
  let index := if (index =? -1)%Z then 0%Z else if (index =? -2)%Z then (nsections pc - 1)%Z else index in
  sec ← get_section pc index;
  let safety := cone_safety_in t (sec_solid sec) (shifted sec p) in
  if needZ then Some safety else
  if rltb safety kTolerance then Some safety else
  both_ways t pc (Z.to_nat index) p safety.
(* PolyconeImplementation.h:419-482; [inf] is kInfLength *)
Definition poly_safety_out (inf : R) (t : cone_type) (pc : polycone) (p : v3) : option R :=
  '(_, out) ← poly_kernel t true pc p;
  if (out : bool) then Some (-1) else
  index ← section_index pc (vz p);
  if (index <? 0)%Z then Some (-1) else
  sec ← get_section pc index;
  let safety := cone_safety_out t (sec_solid sec) (shifted sec p) in
  if reqb safety inf then Some 0 else
  if rltb safety kTolerance then Some 0 else
  both_ways t pc (Z.to_nat index) p safety.

Section rays.
(** kInfLength and the ray distances of the sections: ConeImplementation.h DistanceToIn and DistanceToOut *)
Variable inf : R.
Variable cone_to_in cone_to_out : cone_type → cone → v3 → v3 → R → R.

(* PolyconeImplementation.h:174-175 and 290-291 *)
Definition increment (d : v3) : Z :=
  if rltb (Rabs (vz d)) kTolerance then 0%Z else if rgtb (vz d) 0 then 1%Z else (-1)%Z.
(** PolyconeImplementation.h:180-202; [fuel] bounds the number of turns *)
Fixpoint to_in_loop (t : cone_type) (pc : polycone) (p d : v3) (smax : R) (inc : Z) (fuel : nat) (i : Z) : option R :=
  match fuel with
  | O => None
  | S f =>
    sec ← get_section pc i;
    let distance := cone_to_in t (sec_solid sec) (shifted sec p) d smax in
    if rltb distance inf || (inc =? 0)%Z then Some distance else
    if ((0 <=? i + inc) && (i + inc <? nsections pc))%Z then to_in_loop t pc p d smax inc f (i + inc)%Z else Some distance
  end.
(* PolyconeImplementation.h:157-204 *)
Definition poly_to_in (t : cone_type) (pc : polycone) (p d : v3) (smax : R) : option R :=
  index ← section_index pc (vz p);
  let index := if (index =? -1)%Z then 0%Z else if (index =? -2)%Z then (nsections pc - 1)%Z else index in
  to_in_loop t pc p d smax (increment d) (length (pc_sections pc)) index.

(* PolyconeImplementation.h:245, 260, 282, 305 and 334 (kOutside is 3) *)
Definition is_outside (i : inside) : bool := match i with kOutside => true | _ => false end.
Definition section_outside (t : cone_type) (s : section) (p : v3) : bool :=
  is_outside (cone_inside t (sec_solid s) (shifted s p)).
(* PolyconeImplementation.h:319-325 *)
Definition next_index (pc : polycone) (inc i : Z) : Z :=
  if ((0 <? i) && (i <? nsections pc - 1))%Z then (i + inc)%Z else
  let i1 := if ((i =? 0) && (0 <? inc))%Z then (i + inc)%Z else i in
  if ((i =? nsections pc - 1) && (inc <? 0))%Z then (i1 + inc)%Z else i1.
(** PolyconeImplementation.h:295-343; [pn] is the local point of the previous turn *)
Fixpoint to_out_loop (t : cone_type) (pc : polycone) (p d : v3) (smax : R) (inc : Z) (fuel : nat) (i : Z) (istep : nat)
  (total : R) (pn : v3) : option R :=
  match fuel with
  | O => None
  | S f =>
    sec ← get_section pc i;
    let check := negb (reqb total 0) || (istep <? 2)%nat in
    let pn := shifted sec (if check then along p d total else pn) in
    if check && is_outside (cone_inside t (sec_solid sec) pn) then Some total else
    let dist := cone_to_out t (sec_solid sec) pn d smax in
    if reqb dist (-1) then Some inf else
    stop ← (if rltb (Rabs dist) (5 / 10 * kTolerance) then
              sec1 ← get_section pc (next_index pc inc i);
              Some (section_outside t sec1 (along p d (total + dist)) || (inc =? 0)%Z)
            else Some false);
    if (stop : bool) then Some total else
    if negb (inc =? 0)%Z && (0 <=? i + inc)%Z && (i + inc <? nsections pc)%Z
    then to_out_loop t pc p d smax inc f (i + inc)%Z (S istep) (total + dist) pn
    else Some (total + dist)
  end.
(** PolyconeImplementation.h:226-287: the section to start in, or the answer *)
Definition start_section (t : cone_type) (pc : polycone) (p : v3) : option (R + Z) :=
  low ← section_index pc (vz p - kTolerance);
  high ← section_index pc (vz p + kTolerance);
  if ((low <? 0) && (high <? 0))%Z then Some (inl (-1)) else
  first ← (if ((low <? 0) && (0 <=? high))%Z then
             sec ← get_section pc high;
             Some (if section_outside t sec p then inl (-1) else inr high)
           else if (negb (low =? high) && (0 <=? low))%Z then
             sec ← get_section pc low;
             Some (inr (if section_outside t sec p then high else low))
           else if (low <? 0)%Z then i ← section_index pc (vz p); Some (inr i) else Some (inr low));
  match first with
  | inl r => Some (inl r)
  | inr index =>
    if (index <? 0)%Z then Some (inl 0) else
    sec ← get_section pc index;
    Some (if section_outside t sec p then inl (-1) else inr index)
  end.
(* PolyconeImplementation.h:207-346 *)
Definition poly_to_out (t : cone_type) (pc : polycone) (p d : v3) (smax : R) : option R :=
  if (nsections pc =? 1)%Z then sec ← get_section pc 0; Some (cone_to_out t (sec_solid sec) (shifted sec p) d smax) else
  start ← start_section t pc p;
  match start with
  | inl r => Some r
  | inr index => to_out_loop t pc p d smax (increment d) (length (pc_sections pc)) index 0 0 p
  end.
End rays.
