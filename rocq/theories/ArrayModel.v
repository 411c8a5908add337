(** Model of the owning containers Array, AOS3D and SOA3D with an explicit heap,
    so that two containers may share storage and an object may be assigned to itself.
    VecGeom/base/Array.h, VecGeom/base/AOS3D.h, VecGeom/base/SOA3D.h (host code).

    The heap maps block numbers to lists of cells ([None] = uninitialised); the
    objects are named, operator= receives two names which may coincide.  The result
    [None] stands for undefined behaviour: access through a null or dangling
    pointer, out of bounds, double free.
    Simplification: AOS3D and SOA3D are generic in the value type; Vector3D is a type
    like any other. *)
From stdpp Require Import list option gmap fin_maps.
Local Open Scope nat_scope.

Notation heap A := (gmap nat (list (option A))).
Section Heap.
Context {A : Type}.
Definition ptr := option nat. (* None = nullptr *)

(* AlignedAlloc / AlignedAllocate *)
Definition alloc (h : heap A) (n : nat) : heap A * nat :=
  let p := fresh (dom h) in (<[p := replicate n None]> h, p).
(* AlignedFree; freeing the null pointer does nothing *)
Definition free (h : heap A) (p : ptr) : option (heap A) :=
  match p with
  | None => Some h
  | Some b => _ ← h !! b; Some (delete b h)
  end.
(* copy(src, src + n, dst) (backend/scalar/Backend.h copy = std::copy) *)
Definition copy (h : heap A) (src dst : ptr) (n : nat) : option (heap A) :=
  if n =? 0 then Some h
  else
    s ← src; d ← dst; cs ← h !! s; cd ← h !! d;
    if (n <=? length cs) && (n <=? length cd)
    then Some (<[d := take n cs ++ drop n cd]> h) else None.
(* p[i] *)
Definition load (h : heap A) (p : ptr) (i : nat) : option A := b ← p; c ← h !! b; x ← c !! i; x.
Definition store (h : heap A) (p : ptr) (i : nat) (x : A) : option (heap A) :=
  b ← p; c ← h !! b; if i <? length c then Some (<[b := <[i := Some x]> c]> h) else None.

(** * Array *)
(* Array.h:19-21 *)
Record arr := Arr { a_ptr : ptr; a_size : nat; a_own : bool }.
Record astate := AState { a_heap : heap A; a_objs : gmap nat arr }.

(* Array.h:133-145 Deallocate *)
Definition arr_dealloc (st : astate) (o : nat) : option astate :=
  a ← a_objs st !! o;
  h ← (if a_own a then free (a_heap st) (a_ptr a) else Some (a_heap st));
  Some (AState h (<[o := Arr None 0 false]> (a_objs st))).
(* Array.h:117-129 Allocate *)
Definition arr_alloc (st : astate) (o n : nat) : option astate :=
  st1 ← arr_dealloc st o;
  if n =? 0 then Some (AState (a_heap st1) (<[o := Arr None 0 false]> (a_objs st1)))
  else let '(h, p) := alloc (a_heap st1) n in
       Some (AState h (<[o := Arr (Some p) n true]> (a_objs st1))).
(* Array.h:150-162 operator= *)
Definition arr_assign (st : astate) (d s : nat) : option astate :=
  st1 ← arr_dealloc st d;
  a1 ← a_objs st1 !! s;
  st2 ← arr_alloc st1 d (a_size a1);
  a2 ← a_objs st2 !! s;
  b2 ← a_objs st2 !! d;
  h ← copy (a_heap st2) (a_ptr a2) (a_ptr b2) (a_size a2);
  Some (AState h (a_objs st2)).
(* Array.h:47 operator[], :55 size() *)
Definition arr_get (st : astate) (o i : nat) : option A :=
  a ← a_objs st !! o; load (a_heap st) (a_ptr a) i.

(** * AOS3D *)
(* AOS3D.h:27-29 *)
Record aos := Aos { o_own : bool; o_size : nat; o_cap : nat; o_ptr : ptr }.
Record ostate := OState { o_heap : heap A; o_objs : gmap nat aos }.

(* AOS3D.h:237-242 Deallocate *)
Definition aos_dealloc (h : heap A) (a : aos) : option (heap A) :=
  if o_own a then free h (o_ptr a) else Some h.
(* AOS3D.h:226-233 clear *)
Definition aos_clear (st : ostate) (o : nat) : option ostate :=
  a ← o_objs st !! o;
  h ← aos_dealloc (o_heap st) a;
  Some (OState h (<[o := Aos false 0 0 None]> (o_objs st))).
(* AOS3D.h:212-223 reserve *)
Definition aos_reserve (st : ostate) (o n : nat) : option ostate :=
  a ← o_objs st !! o;
  let '(h1, p) := if 0 <? n then let '(h, p) := alloc (o_heap st) n in (h, Some p)
                  else (o_heap st, None) in
  let sz := if n <? o_size a then n else o_size a in
  h2 ← (match o_ptr a with
        | Some _ => if 0 <? sz then copy h1 (o_ptr a) p sz else Some h1
        | None => Some h1
        end);
  h3 ← aos_dealloc h2 a;
  Some (OState h3 (<[o := Aos (match p with Some _ => true | None => false end) sz n p]> (o_objs st))).
(* AOS3D.h:160-180 operator= *)
Definition aos_assign (st : ostate) (d s : nat) : option ostate :=
  st1 ← aos_clear st d;
  r1 ← o_objs st1 !! s;
  st2 ← (if o_own r1 then
           st2 ← aos_reserve st1 d (o_cap r1);
           r2 ← o_objs st2 !! s; a2 ← o_objs st2 !! d;
           h ← copy (o_heap st2) (o_ptr r2) (o_ptr a2) (o_size r2);
           Some (OState h (o_objs st2))
         else
           a1 ← o_objs st1 !! d;
           Some (OState (o_heap st1)
                   (<[d := Aos false (o_size a1) (o_cap r1) (o_ptr r1)]> (o_objs st1))));
  r3 ← o_objs st2 !! s; a3 ← o_objs st2 !! d;
  Some (OState (o_heap st2) (<[d := Aos (o_own a3) (o_size r3) (o_cap a3) (o_ptr a3)]> (o_objs st2))).
(* AOS3D.h:246 operator[] *)
Definition aos_get (st : ostate) (o i : nat) : option A :=
  a ← o_objs st !! o; load (o_heap st) (o_ptr a) i.

(** * SOA3D *)
(* SOA3D.h:39-41 *)
Record soa := Soa { s_own : bool; s_size : nat; s_cap : nat; s_x : ptr; s_y : ptr; s_z : ptr }.
Record sstate := SState { s_heap : heap A; s_objs : gmap nat soa }.

(* SOA3D.h:310-318 Deallocate: the pointers keep their values *)
Definition soa_dealloc (h : heap A) (a : soa) : option (heap A) :=
  if s_own a then h1 ← free h (s_x a); h2 ← free h1 (s_y a); free h2 (s_z a) else Some h.
(* SOA3D.h:298-306 Allocate *)
Definition soa_alloc (h : heap A) (a : soa) : heap A * soa :=
  if s_cap a =? 0 then (h, a)
  else
    let '(h1, x) := alloc h (s_cap a) in
    let '(h2, y) := alloc h1 (s_cap a) in
    let '(h3, z) := alloc h2 (s_cap a) in
    (h3, Soa true (s_size a) (s_cap a) (Some x) (Some y) (Some z)).
(* SOA3D.h:208-233 operator= *)
Definition soa_assign (st : sstate) (d s : nat) : option sstate :=
  a0 ← s_objs st !! d; r0 ← s_objs st !! s;
  (* 211-212: sizes are copied before Deallocate *)
  let o1 := <[d := Soa (s_own a0) (s_size r0) (s_cap r0) (s_x a0) (s_y a0) (s_z a0)]> (s_objs st) in
  (* 213 *)
  a1 ← o1 !! d;
  h1 ← soa_dealloc (s_heap st) a1;
  let o2 := <[d := Soa false (s_size a1) (s_cap a1) (s_x a1) (s_y a1) (s_z a1)]> o1 in
  (* 214 *)
  r2 ← o2 !! s; a2 ← o2 !! d;
  if s_own r2 && (0 <? s_size r2) then
    let '(h3, a3) := soa_alloc h1 a2 in
    let o3 := <[d := a3]> o2 in
    r3 ← o3 !! s;
    h4 ← copy h3 (s_x r3) (s_x a3) (s_size r3);
    h5 ← copy h4 (s_y r3) (s_y a3) (s_size r3);
    h6 ← copy h5 (s_z r3) (s_z a3) (s_size r3);
    Some (SState h6 o3)
  else
    Some (SState h1 (<[d := Soa (s_own a2) (s_size a2) (s_cap a2) (s_x r2) (s_y r2) (s_z r2)]> o2)).
(* SOA3D.h:322-325 operator[] *)
Definition soa_get (st : sstate) (o i : nat) : option (A * A * A) :=
  a ← s_objs st !! o;
  x ← load (s_heap st) (s_x a) i; y ← load (s_heap st) (s_y a) i; z ← load (s_heap st) (s_z a) i;
  Some (x, y, z).
(* SOA3D.h:443-449 push_back (no capacity check) *)
Definition soa_push_back (st : sstate) (o : nat) (x y z : A) : option sstate :=
  a ← s_objs st !! o;
  h1 ← store (s_heap st) (s_x a) (s_size a) x;
  h2 ← store h1 (s_y a) (s_size a) y;
  h3 ← store h2 (s_z a) (s_size a) z;
  Some (SState h3 (<[o := Soa (s_own a) (S (s_size a)) (s_cap a) (s_x a) (s_y a) (s_z a)]> (s_objs st))).
End Heap.
Arguments astate : clear implicits.
Arguments ostate : clear implicits.
Arguments sstate : clear implicits.
