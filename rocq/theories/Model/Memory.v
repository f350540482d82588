(* Memory helpers: util/monotonic_allocator.hh, aligned_allocator.hh, padded_aligned.hh,
   smallest_integer.hh, byte_block.hh, mem_test.hh. *)
From Verif.Common Require Import Base.
From Verif.Spec Require Import MemorySpec.

(* MonotonicAllocator, monotonic_allocator.hh lines 5-38; the state is offset, [sz] is
   arena.size(); a pointer is an offset into the arena *)
Definition mono_step (sz offset : Z) (o : mop) : Z * mout :=
  match o with
  | MAlloc size => if sz - offset >? size then (offset + size, MBlock (Some offset)) else (offset, MBlock None)
  | MReset => (0, MUnit)
  | MFree => (offset, MNum (sz - offset))
  | MTotal => (offset, MNum sz)
  end.

(* AlignedAllocator::allocate, aligned_allocator.hh lines 15-27: the size passed to aligned_alloc,
   with a std::size_t of [w] bits; None: returns nullptr at once *)
Definition aligned_request (w T Alignment n : Z) : option Z :=
  if n =? 0 then None
  else
    let size := word w (n * T) in
    Some (word w (word w (size + Alignment - 1) / Alignment * Alignment)).

(* PaddedAligned, padded_aligned.hh lines 11-13 *)
Definition padded_aligned_sz (w data_sz Align : Z) : Z :=
  Z.land (word w (data_sz + (Align - 1))) (word w (Z.lnot (Align - 1))).
Definition padded_pad_sz (w data_sz Align : Z) : Z := word w (padded_aligned_sz w data_sz Align - data_sz).

(* SmallestUnsignedInt, SmallestSignedInt, smallest_integer.hh lines 7-22: the width of the chosen
   type.  None: does not compile, because of the requires clause, because -min_val overflows, or
   because the template argument is negative (a narrowing conversion). *)
Definition smallest_unsigned (max_val : Z) : Z :=
  if max_val <=? 2 ^ 8 - 1 then 8 else if max_val <=? 2 ^ 16 - 1 then 16 else if max_val <=? 2 ^ 32 - 1 then 32 else 64.
Definition smallest_signed (min_val max_val : Z) : option Z :=
  if negb (min_val <=? max_val) then None
  else if min_val =? - 2 ^ 63 then None
  else
    let v := sword 64 ((if max_val >=? - min_val then max_val else - min_val - 1) * 2) in
    if v <? 0 then None else Some (smallest_unsigned v).

(* ByteBlock, byte_block.hh lines 4-40 *)
Definition byte_of (x sh : Z) : Z := Z.land (Z.shiftr x sh) 0xFF.
Definition bb_step (data : list Z) (o : bop) : list Z :=
  match o with
  | BU8 x => data ++ [byte_of x 0]
  | BU16 x => (data ++ [byte_of x 0]) ++ [byte_of x 8]
  | BU32 x => (((data ++ [byte_of x 0]) ++ [byte_of x 8]) ++ [byte_of x 16]) ++ [byte_of x 24]
  | BRaw l => data ++ l
  end.

(* MemTest, mem_test.hh lines 3-38; [rdm] and [wrm] read and write a word of the memory under
   test *)
Definition encode (x : Z) : Z := word 32 (x * 0x55555555 + 0x00700707).
Definition initseed : Z := 0x1234FEDC.
Section MemTest.
Context {M : Type} (rdm : M -> Z -> Z) (wrm : M -> Z -> Z -> M).
(* lines 9-15 *)
Fixpoint write_pass (fuel : nat) (m : M) (p stop seed : Z) : outcome M :=
  if p <? stop then
    match fuel with O => OutOfFuel | S f => write_pass f (wrm m p seed) (p + 4) stop (encode seed) end
  else Ok m.
(* lines 18-26 *)
Fixpoint read_pass (fuel : nat) (m : M) (p stop seed : Z) : outcome bool :=
  if p <? stop then
    match fuel with
    | O => OutOfFuel
    | S f => if negb (rdm m p =? seed) then Ok false else read_pass f m (p + 4) stop (encode seed)
    end
  else Ok true.
Definition check (fuel : nat) (m : M) (start stop : Z) : outcome (M * bool) :=
  let* m' := write_pass fuel m start stop initseed in
  let* r := read_pass fuel m' start stop initseed in
  Ok (m', r).
(* lines 31-37 *)
Definition check_addr (fuel : nat) (m : M) (start stop : Z) : outcome (M * bool) :=
  if start >? stop then Ok (m, false) else check fuel m start stop.
End MemTest.
