(** Model of VecGeom/base/BitSet.h (class vecgeom::BitSet) and of the parts of
    VecGeom/base/VariableSizeObj.h it uses.

    A bit set is its byte buffer (fData, fN bytes) and fNbits.  [None] is the
    outcome "undefined behaviour": an access outside the fN allocated bytes.
    Simplifications: size_t is unbounded [nat] except where the code relies on
    wrap-around (noted there); char arrays are lists of bytes; the little-endian
    branch (R__BYTESWAP) of the wider Set/Get overloads is identical to the char
    overload and is not duplicated; [fN] is not limited to 31 bits. *)
From stdpp Require Import list option.
From Coq Require Import NArith Arith.

Local Open Scope nat_scope.

Record bitset := BitSet { bs_data : list N; bs_nbits : nat }.

(* BitSet.h:818, GetNbytes() = fData.fN *)
Definition get_nbytes (s : bitset) : nat := length (bs_data s).

(* BitSet.h:63, static GetNbytes(nbits) *)
Definition nbytes_for (nbits : nat) : nat :=
  ((if nbits =? 0 then 8 else nbits) - 1) / 8 + 1.

(* BitSet.h:252-256 MakeInstance and :89, constructor BitSet(nvalues, nbits):
   fN = GetNbytes(nbits) bytes, all zero. *)
Definition make_instance (nbits : nat) : bitset :=
  BitSet (replicate (nbytes_for nbits) 0%N) nbits.

(* C++ [1 << bit] for 0 <= bit < 8 *)
Definition bitmask (bit : nat) : N := N.shiftl 1 (N.of_nat bit).

(* fData[i] = v with i checked against fN *)
Definition store (d : list N) (i : nat) (v : N) : option (list N) :=
  if decide (i < length d) then Some (<[i := v]> d) else None.

(* memset(&fData[from], v, n) *)
Fixpoint memset (d : list N) (from n : nat) (v : N) : option (list N) :=
  match n with
  | 0 => Some d
  | S n' => d' ← store d from v; memset d' (S from) n' v
  end.

(* memcpy(fData, src, n): reads past the end of either array are UB *)
Fixpoint memcpy (d : list N) (src : list N) (at_ n : nat) : option (list N) :=
  match n with
  | 0 => Some d
  | S n' => b ← src !! at_; d' ← store d at_ b; memcpy d' src (S at_) n'
  end.

(* BitSet.h:303-322 SetBitNumber; :300 ResetBitNumber(i) = SetBitNumber(i,false) *)
Definition set_bit (s : bitset) (bitnumber : nat) (value : bool) : option (bitset * bool) :=
  let go nbits :=
    let loc := bitnumber / 8 in
    let bit := bitnumber mod 8 in
    b ← bs_data s !! loc;
    d ← store (bs_data s) loc
          (if value then N.lor b (bitmask bit)
           else N.land b (N.lxor 255 (bitmask bit)));
    Some (BitSet d nbits, true) in
  if bs_nbits s <=? bitnumber then
    let new_size := bitnumber / 8 + 1 in
    if get_nbytes s <? new_size then Some (s, false)
    else go (bitnumber + 1)
  else go (bs_nbits s).

(* BitSet.h:325-336 TestBitNumber; :346 operator[] const *)
Definition test_bit (s : bitset) (bitnumber : nat) : option bool :=
  if bs_nbits s <=? bitnumber then Some false
  else
    value ← bs_data s !! (bitnumber / 8);
    Some (negb (N.land value (bitmask (bitnumber mod 8)) =? 0)%N).

(* BitSet.h:339-345 operator[] (non const) followed by :201-209
   reference::operator=(bool).  Out-of-range positions give the dummy reference
   of :190, whose fBit aliases its own fPos, so that the write is lost. *)
Definition ref_assign (s : bitset) (bitnumber : nat) (value : bool) : option bitset :=
  if bs_nbits s <=? bitnumber then Some s
  else
    let loc := bitnumber / 8 in
    let bit := bitnumber mod 8 in
    b ← bs_data s !! loc;
    d ← store (bs_data s) loc
          (if value then N.lor b (bitmask bit)
           else N.land b (N.lxor 255 (bitmask bit)));
    Some (BitSet d (bs_nbits s)).

(* BitSet.h:291-297 ResetAllBits: memset(..., value ? 1 : 0, GetNbytes()) *)
Definition reset_all (s : bitset) (value : bool) : option bitset :=
  d ← memset (bs_data s) 0 (get_nbytes s) (if value then 1%N else 0%N);
  Some (BitSet d (bs_nbits s)).

(* BitSet.h:574-578 Clear *)
Definition clear (s : bitset) : option bitset :=
  d ← memset (bs_data s) 0 (get_nbytes s) 0%N;
  Some (BitSet d 0).

(* The loop "for (i = 0; i < min; ++i) fData[i] = f(fData[i], rhs.fData[i])" of
   BitSet.h:98-100, 113-115, 125-127 *)
Fixpoint zip_loop (f : N → N → N) (d r : list N) (i n : nat) : option (list N) :=
  match n with
  | 0 => Some d
  | S n' => a ← d !! i; b ← r !! i; d' ← store d i (f a b); zip_loop f d' r (S i) n'
  end.

(* BitSet.h:91-104 DoAndEqual *)
Definition and_equal (s rhs : bitset) : option bitset :=
  let m := if get_nbytes s <? get_nbytes rhs then get_nbytes s else get_nbytes rhs in
  d ← zip_loop N.land (bs_data s) (bs_data rhs) 0 m;
  d' ← (if m <? get_nbytes s then memset d m (get_nbytes s - m) 0%N else Some d);
  Some (BitSet d' (bs_nbits s)).

(* BitSet.h:106-116 DoOrEqual *)
Definition or_equal (s rhs : bitset) : option bitset :=
  let m := if get_nbytes s <? get_nbytes rhs then get_nbytes s else get_nbytes rhs in
  d ← zip_loop N.lor (bs_data s) (bs_data rhs) 0 m;
  Some (BitSet d (bs_nbits s)).

(* BitSet.h:118-128 DoXorEqual *)
Definition xor_equal (s rhs : bitset) : option bitset :=
  let m := if get_nbytes s <? get_nbytes rhs then get_nbytes s else get_nbytes rhs in
  d ← zip_loop N.lxor (bs_data s) (bs_data rhs) 0 m;
  Some (BitSet d (bs_nbits s)).

(* BitSet.h:173-181 DoFlip, loop over GetNbytes() bytes; ~ on unsigned char *)
Fixpoint flip_loop (d : list N) (i n : nat) : option (list N) :=
  match n with
  | 0 => Some d
  | S n' => a ← d !! i; d' ← store d i (N.lxor 255 a); flip_loop d' (S i) n'
  end.
Definition do_flip (s : bitset) : option bitset :=
  d ← flip_loop (bs_data s) 0 (get_nbytes s);
  Some (BitSet d (bs_nbits s)).

(* conversion of an int to unsigned char on assignment *)
Definition to_uchar (x : N) : N := N.land x 255.

(* BitSet.h:138-140, downward loop for byte-aligned left shifts: called with
   n = GetNbytes()-1, runs while n >= wordshift (wordshift >= 1 here so n does not
   wrap).  [cnt] is the number of iterations. *)
Fixpoint shl_loop0 (d : list N) (ws n cnt : nat) : option (list N) :=
  match cnt with
  | 0 => Some d
  | S cnt' => a ← d !! (n - ws); d' ← store d n a; shl_loop0 d' ws (n - 1) cnt'
  end.
(* BitSet.h:143-145 *)
Fixpoint shl_loop1 (d : list N) (ws off n cnt : nat) : option (list N) :=
  match cnt with
  | 0 => Some d
  | S cnt' =>
      a ← d !! (n - ws); b ← d !! (n - ws - 1);
      d' ← store d n (to_uchar (N.lor (N.shiftl a (N.of_nat off))
                                      (N.shiftr b (N.of_nat (8 - off)))));
      shl_loop1 d' ws off (n - 1) cnt'
  end.
(* BitSet.h:130-149 DoLeftShift *)
Definition shift_left (s : bitset) (shift : nat) : option bitset :=
  if shift =? 0 then Some s
  else
    let ws := shift / 8 in
    let off := shift mod 8 in
    let nb := get_nbytes s in
    d ← (if off =? 0 then shl_loop0 (bs_data s) ws (nb - 1) (nb - ws)
         else
           d1 ← shl_loop1 (bs_data s) ws off (nb - 1) (nb - 1 - ws);
           a ← d1 !! 0;
           store d1 ws (to_uchar (N.shiftl a (N.of_nat off))));
    d' ← memset d 0 ws 0%N;
    Some (BitSet d' (bs_nbits s)).

(* BitSet.h:161-162; when wordshift >= GetNbytes() the unsigned "limit" wraps to a
   huge value and the loop runs off the buffer: the caller passes that as UB. *)
Fixpoint shr_loop0 (d : list N) (ws n cnt : nat) : option (list N) :=
  match cnt with
  | 0 => Some d
  | S cnt' => a ← d !! (n + ws); d' ← store d n a; shr_loop0 d' ws (S n) cnt'
  end.
(* BitSet.h:165-166 *)
Fixpoint shr_loop1 (d : list N) (ws off n cnt : nat) : option (list N) :=
  match cnt with
  | 0 => Some d
  | S cnt' =>
      a ← d !! (n + ws); b ← d !! (n + ws + 1);
      d' ← store d n (to_uchar (N.lor (N.shiftr a (N.of_nat off))
                                      (N.shiftl b (N.of_nat (8 - off)))));
      shr_loop1 d' ws off (S n) cnt'
  end.
(* BitSet.h:151-171 DoRightShift *)
Definition shift_right (s : bitset) (shift : nat) : option bitset :=
  if shift =? 0 then Some s
  else
    let ws := shift / 8 in
    let off := shift mod 8 in
    let nb := get_nbytes s in
    if nb <=? ws then None (* limit wraps around; out-of-bounds accesses follow *)
    else
      let limit := nb - ws - 1 in
      d ← (if off =? 0 then shr_loop0 (bs_data s) ws 0 (limit + 1)
           else
             d1 ← shr_loop1 (bs_data s) ws off 0 limit;
             a ← d1 !! (nb - 1);
             store d1 limit (N.shiftr a (N.of_nat off)));
      d' ← memset d (limit + 1) (nb - limit - 1) 0%N;
      Some (BitSet d' (bs_nbits s)).

(* BitSet.h:381-392 Set(nbits, const char * array); [array] must hold the bytes *)
Definition set_raw (s : bitset) (nbits : nat) (array : list N) : option (bitset * bool) :=
  let nbytes := (nbits + 7) / 8 in
  if get_nbytes s <? nbytes then Some (s, false)
  else
    d ← memcpy (bs_data s) array 0 nbytes;
    Some (BitSet d nbits, true).

(* BitSet.h:483-488 Get(char * array): the bytes written to the array *)
Fixpoint copy_out (d : list N) (i n : nat) : option (list N) :=
  match n with
  | 0 => Some []
  | S n' => b ← d !! i; r ← copy_out d (S i) n'; Some (b :: r)
  end.
Definition get_raw (s : bitset) : option (list N) :=
  copy_out (bs_data s) 0 ((bs_nbits s + 7) / 8).

(* VariableSizeObj.h:60-76 operator= and BitSet.h:236-247 operator= (distinct objects) *)
Definition assign (s rhs : bitset) : option bitset :=
  d ← (if get_nbytes rhs <=? get_nbytes s then
         d1 ← memcpy (bs_data s) (bs_data rhs) 0 (get_nbytes rhs);
         memset d1 (get_nbytes rhs) (get_nbytes s - get_nbytes rhs) 0%N
       else memcpy (bs_data s) (bs_data rhs) 0 (get_nbytes s));
  Some (BitSet d (bs_nbits rhs)).

(* VariableSizeObj.h:49-52, :135-146 MakeCopy(new_size, other) and BitSet.h:73-86.
   The fresh buffer of new_size bytes is uninitialised; reading it before a write
   is represented by the (arbitrary) byte list [garbage] of length new_size. *)
Definition make_copy_sized (garbage : list N) (other : bitset) : option bitset :=
  let new_size := length garbage in
  d ← memcpy garbage (bs_data other) 0 (get_nbytes other);
  let nbits := if new_size <? bs_nbits other * 8 then 8 * new_size else bs_nbits other in
  d' ← (if get_nbytes other <? new_size
        then memset d (get_nbytes other) (new_size - get_nbytes other) 0%N else Some d);
  Some (BitSet d' nbits).

(* BitSet.h:586-602, CountBits, nbits[256] *)
Definition count_table : list nat :=
  [
    0; 1; 1; 2; 1; 2; 2; 3; 1; 2; 2; 3; 2; 3; 3; 4;
    1; 2; 2; 3; 2; 3; 3; 4; 2; 3; 3; 4; 3; 4; 4; 5;
    1; 2; 2; 3; 2; 3; 3; 4; 2; 3; 3; 4; 3; 4; 4; 5;
    2; 3; 3; 4; 3; 4; 4; 5; 3; 4; 4; 5; 4; 5; 5; 6;
    1; 2; 2; 3; 2; 3; 3; 4; 2; 3; 3; 4; 3; 4; 4; 5;
    2; 3; 3; 4; 3; 4; 4; 5; 3; 4; 4; 5; 4; 5; 5; 6;
    2; 3; 3; 4; 3; 4; 4; 5; 3; 4; 4; 5; 4; 5; 5; 6;
    3; 4; 4; 5; 4; 5; 5; 6; 4; 5; 5; 6; 5; 6; 6; 7;
    1; 2; 2; 3; 2; 3; 3; 4; 2; 3; 3; 4; 3; 4; 4; 5;
    2; 3; 3; 4; 3; 4; 4; 5; 3; 4; 4; 5; 4; 5; 5; 6;
    2; 3; 3; 4; 3; 4; 4; 5; 3; 4; 4; 5; 4; 5; 5; 6;
    3; 4; 4; 5; 4; 5; 5; 6; 4; 5; 5; 6; 5; 6; 6; 7;
    2; 3; 3; 4; 3; 4; 4; 5; 3; 4; 4; 5; 4; 5; 5; 6;
    3; 4; 4; 5; 4; 5; 5; 6; 4; 5; 5; 6; 5; 6; 6; 7;
    3; 4; 4; 5; 4; 5; 5; 6; 4; 5; 5; 6; 5; 6; 6; 7;
    4; 5; 5; 6; 5; 6; 6; 7; 5; 6; 6; 7; 6; 7; 7; 8 ].

(* BitSet.h:634-650, FirstNullBit, bitsPattern[256] *)
Definition first_null_table : list nat :=
  [
    0; 1; 0; 2; 0; 1; 0; 3; 0; 1; 0; 2; 0; 1; 0; 4;
    0; 1; 0; 2; 0; 1; 0; 3; 0; 1; 0; 2; 0; 1; 0; 5;
    0; 1; 0; 2; 0; 1; 0; 3; 0; 1; 0; 2; 0; 1; 0; 4;
    0; 1; 0; 2; 0; 1; 0; 3; 0; 1; 0; 2; 0; 1; 0; 6;
    0; 1; 0; 2; 0; 1; 0; 3; 0; 1; 0; 2; 0; 1; 0; 4;
    0; 1; 0; 2; 0; 1; 0; 3; 0; 1; 0; 2; 0; 1; 0; 5;
    0; 1; 0; 2; 0; 1; 0; 3; 0; 1; 0; 2; 0; 1; 0; 4;
    0; 1; 0; 2; 0; 1; 0; 3; 0; 1; 0; 2; 0; 1; 0; 7;
    0; 1; 0; 2; 0; 1; 0; 3; 0; 1; 0; 2; 0; 1; 0; 4;
    0; 1; 0; 2; 0; 1; 0; 3; 0; 1; 0; 2; 0; 1; 0; 5;
    0; 1; 0; 2; 0; 1; 0; 3; 0; 1; 0; 2; 0; 1; 0; 4;
    0; 1; 0; 2; 0; 1; 0; 3; 0; 1; 0; 2; 0; 1; 0; 6;
    0; 1; 0; 2; 0; 1; 0; 3; 0; 1; 0; 2; 0; 1; 0; 4;
    0; 1; 0; 2; 0; 1; 0; 3; 0; 1; 0; 2; 0; 1; 0; 5;
    0; 1; 0; 2; 0; 1; 0; 3; 0; 1; 0; 2; 0; 1; 0; 4;
    0; 1; 0; 2; 0; 1; 0; 3; 0; 1; 0; 2; 0; 1; 0; 8 ].

(* BitSet.h:683-699, FirstSetBit, bitsPattern[256] *)
Definition first_set_table : list nat :=
  [
    8; 0; 1; 0; 2; 0; 1; 0; 3; 0; 1; 0; 2; 0; 1; 0;
    4; 0; 1; 0; 2; 0; 1; 0; 3; 0; 1; 0; 2; 0; 1; 0;
    5; 0; 1; 0; 2; 0; 1; 0; 3; 0; 1; 0; 2; 0; 1; 0;
    4; 0; 1; 0; 2; 0; 1; 0; 3; 0; 1; 0; 2; 0; 1; 0;
    6; 0; 1; 0; 2; 0; 1; 0; 3; 0; 1; 0; 2; 0; 1; 0;
    4; 0; 1; 0; 2; 0; 1; 0; 3; 0; 1; 0; 2; 0; 1; 0;
    5; 0; 1; 0; 2; 0; 1; 0; 3; 0; 1; 0; 2; 0; 1; 0;
    4; 0; 1; 0; 2; 0; 1; 0; 3; 0; 1; 0; 2; 0; 1; 0;
    7; 0; 1; 0; 2; 0; 1; 0; 3; 0; 1; 0; 2; 0; 1; 0;
    4; 0; 1; 0; 2; 0; 1; 0; 3; 0; 1; 0; 2; 0; 1; 0;
    5; 0; 1; 0; 2; 0; 1; 0; 3; 0; 1; 0; 2; 0; 1; 0;
    4; 0; 1; 0; 2; 0; 1; 0; 3; 0; 1; 0; 2; 0; 1; 0;
    6; 0; 1; 0; 2; 0; 1; 0; 3; 0; 1; 0; 2; 0; 1; 0;
    4; 0; 1; 0; 2; 0; 1; 0; 3; 0; 1; 0; 2; 0; 1; 0;
    5; 0; 1; 0; 2; 0; 1; 0; 3; 0; 1; 0; 2; 0; 1; 0;
    4; 0; 1; 0; 2; 0; 1; 0; 3; 0; 1; 0; 2; 0; 1; 0 ].

(* BitSet.h:732-748, LastNullBit, bitsPattern[256] *)
Definition last_null_table : list nat :=
  [
    7; 7; 7; 7; 7; 7; 7; 7; 7; 7; 7; 7; 7; 7; 7; 7;
    7; 7; 7; 7; 7; 7; 7; 7; 7; 7; 7; 7; 7; 7; 7; 7;
    7; 7; 7; 7; 7; 7; 7; 7; 7; 7; 7; 7; 7; 7; 7; 7;
    7; 7; 7; 7; 7; 7; 7; 7; 7; 7; 7; 7; 7; 7; 7; 7;
    7; 7; 7; 7; 7; 7; 7; 7; 7; 7; 7; 7; 7; 7; 7; 7;
    7; 7; 7; 7; 7; 7; 7; 7; 7; 7; 7; 7; 7; 7; 7; 7;
    7; 7; 7; 7; 7; 7; 7; 7; 7; 7; 7; 7; 7; 7; 7; 7;
    7; 7; 7; 7; 7; 7; 7; 7; 7; 7; 7; 7; 7; 7; 7; 7;
    6; 6; 6; 6; 6; 6; 6; 6; 6; 6; 6; 6; 6; 6; 6; 6;
    6; 6; 6; 6; 6; 6; 6; 6; 6; 6; 6; 6; 6; 6; 6; 6;
    6; 6; 6; 6; 6; 6; 6; 6; 6; 6; 6; 6; 6; 6; 6; 6;
    6; 6; 6; 6; 6; 6; 6; 6; 6; 6; 6; 6; 6; 6; 6; 6;
    5; 5; 5; 5; 5; 5; 5; 5; 5; 5; 5; 5; 5; 5; 5; 5;
    5; 5; 5; 5; 5; 5; 5; 5; 5; 5; 5; 5; 5; 5; 5; 5;
    4; 4; 4; 4; 4; 4; 4; 4; 4; 4; 4; 4; 4; 4; 4; 4;
    3; 3; 3; 3; 3; 3; 3; 3; 2; 2; 2; 2; 1; 1; 0; 8 ].

(* BitSet.h:777-793, LastSetBit, bitsPattern[256] *)
Definition last_set_table : list nat :=
  [
    8; 0; 1; 1; 2; 2; 2; 2; 3; 3; 3; 3; 3; 3; 3; 3;
    4; 4; 4; 4; 4; 4; 4; 4; 4; 4; 4; 4; 4; 4; 4; 4;
    5; 5; 5; 5; 5; 5; 5; 5; 5; 5; 5; 5; 5; 5; 5; 5;
    5; 5; 5; 5; 5; 5; 5; 5; 5; 5; 5; 5; 5; 5; 5; 5;
    6; 6; 6; 6; 6; 6; 6; 6; 6; 6; 6; 6; 6; 6; 6; 6;
    6; 6; 6; 6; 6; 6; 6; 6; 6; 6; 6; 6; 6; 6; 6; 6;
    6; 6; 6; 6; 6; 6; 6; 6; 6; 6; 6; 6; 6; 6; 6; 6;
    6; 6; 6; 6; 6; 6; 6; 6; 6; 6; 6; 6; 6; 6; 6; 6;
    7; 7; 7; 7; 7; 7; 7; 7; 7; 7; 7; 7; 7; 7; 7; 7;
    7; 7; 7; 7; 7; 7; 7; 7; 7; 7; 7; 7; 7; 7; 7; 7;
    7; 7; 7; 7; 7; 7; 7; 7; 7; 7; 7; 7; 7; 7; 7; 7;
    7; 7; 7; 7; 7; 7; 7; 7; 7; 7; 7; 7; 7; 7; 7; 7;
    7; 7; 7; 7; 7; 7; 7; 7; 7; 7; 7; 7; 7; 7; 7; 7;
    7; 7; 7; 7; 7; 7; 7; 7; 7; 7; 7; 7; 7; 7; 7; 7;
    7; 7; 7; 7; 7; 7; 7; 7; 7; 7; 7; 7; 7; 7; 7; 7;
    7; 7; 7; 7; 7; 7; 7; 7; 7; 7; 7; 7; 7; 7; 7; 7 ].

(* table lookups "t[fData[i]]" *)
Definition table_at (t : list nat) (b : N) : option nat := t !! (N.to_nat b).

(* BitSet.h:607-609 and 621-623: for (i = from; i < GetNbytes(); i++) count += nbits[fData[i]] *)
Fixpoint count_loop (d : list N) (i n : nat) (count : nat) : option nat :=
  match n with
  | 0 => Some count
  | S n' => b ← d !! i; c ← table_at count_table b; count_loop d (S i) n' (count + c)
  end.
(* BitSet.h:616-618: for (i = ibit; i < 8; i++) if (fData[startByte] & (1 << ibit)) count++ *)
Fixpoint count_partial_loop (b : N) (ibit n : nat) (count : nat) : nat :=
  match n with
  | 0 => count
  | S n' => count_partial_loop b ibit n'
              (if (N.land b (bitmask ibit) =? 0)%N then count else S count)
  end.
(* BitSet.h:580-625 CountBits *)
Definition count_bits (s : bitset) (start : nat) : option nat :=
  let nb := get_nbytes s in
  if start =? 0 then count_loop (bs_data s) 0 nb 0
  else if bs_nbits s <=? start then Some 0
  else
    let startByte := start / 8 in
    let ibit := start mod 8 in
    if ibit =? 0 then count_loop (bs_data s) startByte (nb - startByte) 0
    else
      b ← bs_data s !! startByte;
      let c := count_partial_loop b ibit (8 - ibit) 0 in
      count_loop (bs_data s) (S startByte) (nb - S startByte) c.

(* BitSet.h:655-657, 669-671 (skip = 255) and 704-706, 718-720 (skip = 0):
   for (; i < GetNbytes(); i++) if (fData[i] != skip) return 8*i + pattern[fData[i]];
   return fNbits; *)
Fixpoint first_loop (skip : N) (t : list nat) (d : list N) (i n : nat) (dflt : nat) : option nat :=
  match n with
  | 0 => Some dflt
  | S n' =>
      b ← d !! i;
      if (b =? skip)%N then first_loop skip t d (S i) n' dflt
      else p ← table_at t b; Some (8 * i + p)
  end.
(* BitSet.h:664-666, 713-715: for (i = ibit; i < 8; i++) if (bit i of b is [want]) return i *)
Fixpoint first_partial (want : bool) (b : N) (i n : nat) : option nat :=
  match n with
  | 0 => None
  | S n' => if Bool.eqb (negb (N.land b (bitmask i) =? 0)%N) want then Some i
            else first_partial want b (S i) n'
  end.
Definition first_bit (want : bool) (skip : N) (t : list nat) (s : bitset) (start : nat) : option nat :=
  let nb := get_nbytes s in
  if start =? 0 then first_loop skip t (bs_data s) 0 nb (bs_nbits s)
  else if bs_nbits s <=? start then Some (bs_nbits s)
  else
    let startByte := start / 8 in
    let ibit := start mod 8 in
    if ibit =? 0 then first_loop skip t (bs_data s) startByte (nb - startByte) (bs_nbits s)
    else
      b ← bs_data s !! startByte;
      match first_partial want b ibit (8 - ibit) with
      | Some i => Some (8 * startByte + i)
      | None => first_loop skip t (bs_data s) (S startByte) (nb - S startByte) (bs_nbits s)
      end.
(* BitSet.h:628-673 FirstNullBit *)
Definition first_null_bit (s : bitset) (start : nat) : option nat :=
  first_bit false 255 first_null_table s start.
(* BitSet.h:676-722 FirstSetBit *)
Definition first_set_bit (s : bitset) (start : nat) : option nat :=
  first_bit true 0 first_set_table s start.

(* BitSet.h:761-763, 808-810: for (i = startByte+1; i > 0; i--)
   if (fData[i-1] != skip) return 8*(i-1) + pattern[fData[i-1]]; return fNbits *)
Fixpoint last_loop (skip : N) (t : list nat) (d : list N) (i : nat) (dflt : nat) : option nat :=
  match i with
  | 0 => Some dflt
  | S i' =>
      b ← d !! i';
      if (b =? skip)%N then last_loop skip t d i' dflt
      else p ← table_at t b; Some (8 * i' + p)
  end.
(* BitSet.h:756-758, 803-805: for (i = ibit+1; i > 0; i--) if (bit i-1 of b is [want]) return i-1 *)
Fixpoint last_partial (want : bool) (b : N) (i : nat) : option nat :=
  match i with
  | 0 => None
  | S i' => if Bool.eqb (negb (N.land b (bitmask i') =? 0)%N) want then Some i'
            else last_partial want b i'
  end.
(* The clamp "if (startBit >= fNbits) startBit = fNbits - 1" (BitSet.h:752, 796) wraps to
   SIZE_MAX when fNbits = 0 and the code then reads fData[SIZE_MAX/8]: UB. *)
Definition last_bit (want : bool) (skip : N) (t : list nat) (s : bitset) (start : nat) : option nat :=
  if bs_nbits s =? 0 then None
  else
    let start := if bs_nbits s <=? start then bs_nbits s - 1 else start in
    let startByte := start / 8 in
    let ibit := start mod 8 in
    if ibit <? 7 then
      b ← bs_data s !! startByte;
      match last_partial want b (ibit + 1) with
      | Some i => Some (8 * startByte + i)
      | None => last_loop skip t (bs_data s) startByte (bs_nbits s)
      end
    else last_loop skip t (bs_data s) (startByte + 1) (bs_nbits s).
(* BitSet.h:726-765 LastNullBit(startBit); :724 LastNullBit() = LastNullBit(fNbits-1) *)
Definition last_null_bit (s : bitset) (start : nat) : option nat :=
  last_bit false 255 last_null_table s start.
(* BitSet.h:771-812 LastSetBit(startBit); :768 LastSetBit() = LastSetBit(fNbits-1) *)
Definition last_set_bit (s : bitset) (start : nat) : option nat :=
  last_bit true 0 last_set_table s start.

(* memcmp(a, b, n) == 0 *)
Fixpoint memcmp_eq (a b : list N) (i n : nat) : option bool :=
  match n with
  | 0 => Some true
  | S n' => x ← a !! i; y ← b !! i;
            if (x =? y)%N then memcmp_eq a b (S i) n' else Some false
  end.
(* BitSet.h:820-833 operator== *)
Definition bs_eq (s o : bitset) : option bool :=
  if bs_nbits s =? bs_nbits o then memcmp_eq (bs_data s) (bs_data o) 0 ((bs_nbits s + 7) / 8)
  else if bs_nbits s <? bs_nbits o then
    c ← memcmp_eq (bs_data s) (bs_data o) 0 ((bs_nbits s + 7) / 8);
    if (c : bool) then f ← first_set_bit o (bs_nbits s); Some (f =? bs_nbits o) else Some false
  else
    c ← memcmp_eq (bs_data s) (bs_data o) 0 ((bs_nbits o + 7) / 8);
    if (c : bool) then f ← first_set_bit s (bs_nbits o); Some (f =? bs_nbits s) else Some false.

(** Histories over the public mutating interface. *)
Inductive bs_op :=
| OpSet (i : nat) (v : bool)        (* SetBitNumber(i, v) / ResetBitNumber(i) *)
| OpRef (i : nat) (v : bool)        (* b[i] = v *)
| OpResetAll (v : bool)
| OpClear
| OpAnd (rhs : bitset) | OpOr (rhs : bitset) | OpXor (rhs : bitset)
| OpShl (k : nat) | OpShr (k : nat)
| OpSetRaw (n : nat) (array : list N)
| OpAssign (rhs : bitset).

Definition bs_step (s : bitset) (o : bs_op) : option bitset :=
  match o with
  | OpSet i v => r ← set_bit s i v; Some r.1
  | OpRef i v => ref_assign s i v
  | OpResetAll v => reset_all s v
  | OpClear => clear s
  | OpAnd r => and_equal s r
  | OpOr r => or_equal s r
  | OpXor r => xor_equal s r
  | OpShl k => shift_left s k
  | OpShr k => shift_right s k
  | OpSetRaw n a => r ← set_raw s n a; Some r.1
  | OpAssign r => assign s r
  end.
Fixpoint bs_run (s : bitset) (os : list bs_op) : option bitset :=
  match os with
  | [] => Some s
  | o :: os' => s' ← bs_step s o; bs_run s' os'
  end.

(** Histories of SetBitNumber calls with their returned flags. *)
Fixpoint run_writes (s : bitset) (ws : list (nat * bool)) : option (bitset * list bool) :=
  match ws with
  | [] => Some (s, [])
  | w :: ws' => r ← set_bit s w.1 w.2; q ← run_writes r.1 ws'; Some (q.1, r.2 :: q.2)
  end.
