(** Model of vecgeom::Vector (VecGeom/base/Vector.h:64-249).

    One object: its buffer as a list of cells, [None] for a cell holding no live
    object (uninitialised or destroyed), so that the length of the list is what was
    really allocated; fSize, fMemorySize, fAllocated as in the class.  The result
    [None] of a function stands for undefined behaviour (out-of-bounds write, read
    or destruction of a cell without a live object) or a failed assert.
    Simplifications: allocation never fails, size_t does not overflow. *)
From stdpp Require Import list option.
Local Open Scope nat_scope.

Section Vector.
Context {A : Type}.

(* Vector.h:68-70 *)
Record vec := Vec {
  v_data : list (option A);
  v_size : nat;
  v_mem : nat;
  v_alloc : bool }.

(* reading an object from a cell *)
Definition read (d : list (option A)) (i : nat) : option A := c ← d !! i; c.
(* placement new / assignment into a cell *)
Definition write (d : list (option A)) (i : nat) (x : A) : option (list (option A)) :=
  if decide (i < length d) then Some (<[i:=Some x]> d) else None.
(* Vector.h:35 Destroy(T &) *)
Definition destroy (d : list (option A)) (i : nat) : option (list (option A)) :=
  _ ← read d i; Some (<[i:=None]> d).
(* Vector.h:28 Allocate *)
Definition allocate (n : nat) : list (option A) := replicate n None.

(* Vector.h:38-42 Destroy(T * arr, size_t nElem), and the loop of :185-187;
   destroys cells i .. i+n-1 *)
Fixpoint destroy_range (d : list (option A)) (i n : nat) : option (list (option A)) :=
  match n with
  | 0 => Some d
  | S n' => d' ← destroy d i; destroy_range d' (S i) n'
  end.

(* Vector.h:94-95 and :206-207: for (i..) new (&dst[i]) Type(src[i]) *)
Fixpoint copy_range (dst src : list (option A)) (i n : nat) : option (list (option A)) :=
  match n with
  | 0 => Some dst
  | S n' => x ← read src i; dst' ← write dst i x; copy_range dst' src (S i) n'
  end.

(* Vector.h:200-216 reserve *)
Definition reserve (v : vec) (newsize : nat) : option vec :=
  if newsize <=? v_mem v then Some v
  else
    newdata ← copy_range (allocate newsize) (v_data v) 0 (v_size v);
    _ ← destroy_range (v_data v) 0 (v_size v);
    Some (Vec newdata (v_size v) newsize true).

(* Vector.h:79 VectorBase(size_t maxsize); :76 default constructor = 5 *)
Definition make (maxsize : nat) : option vec := reserve (Vec [] 0 0 true) maxsize.

(* Vector.h:84-88 VectorBase(Type * vec, sz, maxsize); the memory is [mem] *)
Definition make_fixed (mem : list (option A)) (sz maxsize : nat) : vec := Vec mem sz maxsize false.

(* Vector.h:142-151 push_back; the argument is passed by value *)
Definition push_back (v : vec) (x : A) : option vec :=
  v' ← (if v_size v =? v_mem v then
          if v_alloc v then reserve v (2 * v_mem v) else None (* assert *)
        else Some v);
  d ← write (v_data v') (v_size v') x;
  Some (Vec d (S (v_size v')) (v_mem v') (v_alloc v')).

Fixpoint push_all (v : vec) (l : list A) : option vec :=
  match l with
  | [] => Some v
  | x :: l' => v' ← push_back v x; push_all v' l'
  end.

(* Vector.h:91-96 copy constructor *)
Definition copy_construct (o : vec) : option vec :=
  d ← copy_range (allocate (v_mem o)) (v_data o) 0 (v_size o);
  Some (Vec d (v_size o) (v_mem o) true).

(* Vector.h:103-104: for (i < other.fSize) push_back(other.fData[i]) *)
Fixpoint push_from (v : vec) (src : list (option A)) (i n : nat) : option vec :=
  match n with
  | 0 => Some v
  | S n' => x ← read src i; v' ← push_back v x; push_from v' src (S i) n'
  end.
(* Vector.h:99-107 operator=, &other != this *)
Definition assign (v o : vec) : option vec :=
  v' ← reserve v (v_mem o);
  push_from v' (v_data o) 0 (v_size o).

(* Vector.h:110-118 initializer_list constructor; [sizeof] = sizeof(Type) *)
Definition of_init_list (sizeof : nat) (l : list A) : option vec :=
  push_all (Vec (allocate (length l)) (length l) (length l * sizeof) true) l.

(* Vector.h:127-131 clear *)
Definition clear (v : vec) : option vec :=
  d ← destroy_range (v_data v) 0 (v_size v);
  Some (Vec d 0 (v_mem v) (v_alloc v)).

(* Vector.h:135, 139 operator[] read and write *)
Definition get (v : vec) (i : nat) : option A := read (v_data v) i.
Definition set (v : vec) (i : nat) (x : A) : option vec :=
  _ ← read (v_data v) i;
  d ← write (v_data v) i x;
  Some (Vec d (v_size v) (v_mem v) (v_alloc v)).

Fixpoint push_n (v : vec) (x : A) (n : nat) : option vec :=
  match n with
  | 0 => Some v
  | S n' => v' ← push_back v x; push_n v' x n'
  end.
(* Vector.h:182-196 resize *)
Definition resize (v : vec) (newsize : nat) (x : A) : option vec :=
  if newsize <=? v_size v then
    d ← destroy_range (v_data v) newsize (v_size v - newsize);
    Some (Vec d newsize (v_mem v) (v_alloc v))
  else
    v' ← (if v_mem v <? newsize then reserve v newsize else Some v);
    push_n v' x (newsize - v_size v').

(* Vector.h:225-226: for (c = where; c+1 != last; ++c) *c = *(c+1) *)
Fixpoint shift_down (d : list (option A)) (c n : nat) : option (list (option A)) :=
  match n with
  | 0 => Some d
  | S n' => x ← read d (S c); d' ← write d c x; shift_down d' (S c) n'
  end.
(* Vector.h:220-231 erase(position); [i] = position - cbegin().  For i >= fSize the
   loop of :225 never meets its end condition. *)
Definition erase (v : vec) (i : nat) : option vec :=
  if v_size v <=? i then None
  else
    d ← (if S i =? v_size v then Some (v_data v) else shift_down (v_data v) i (v_size v - S i));
    d' ← (if v_size v - 1 =? 0 then Some d else destroy d (v_size v - 1));
    Some (Vec d' (v_size v - 1) (v_mem v) (v_alloc v)).

(** Histories over the public interface. *)
Inductive vop :=
| VPush (x : A) | VReserve (n : nat) | VResize (n : nat) (x : A) | VClear
| VErase (i : nat) | VSet (i : nat) (x : A).

Definition vstep (v : vec) (o : vop) : option vec :=
  match o with
  | VPush x => push_back v x
  | VReserve n => reserve v n
  | VResize n x => resize v n x
  | VClear => clear v
  | VErase i => erase v i
  | VSet i x => set v i x
  end.
Fixpoint vrun (v : vec) (os : list vop) : option vec :=
  match os with
  | [] => Some v
  | o :: os' => v' ← vstep v o; vrun v' os'
  end.
End Vector.
Arguments vec : clear implicits.
Arguments vop : clear implicits.
