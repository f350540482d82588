(* Model of util/lockfree_fifo_spsc.hh (LockFreeFifoSpsc) and
   util/lockfree_fifo_spsc_dyn.hh (LockFreeFifoSpscDyn), called from one thread.
   The two classes have the same text except for how a counter is turned into
   a buffer index, so the methods are written once over an index function
   [slot]; [slot_static] and [slot_dyn] are the two instances.
   [W] is the width of size_t.  Counters are W-bit words.
   Atomics are plain loads and stores here (the interleaved and weak-memory
   models are in Model/FifoConc.v and Model/FifoWeak.v). *)
From Verif.Common Require Import Base.
From Verif.Spec Require Import Queue.

Section Fifo.
Context {T : Type}.
Variable W : Z.
Variable dflt : T.                           (* T{} *)
Variable slot : Z -> Z -> outcome Z.         (* capacity, counter -> index *)

(* lockfree_fifo_spsc.hh:140-142, lockfree_fifo_spsc_dyn.hh:160-163 *)
Record fifo := Fifo { f_max : Z; f_head : Z; f_tail : Z; f_buf : list T }.

(* put: spsc.hh:33-44, spsc_dyn.hh:53-64 *)
Definition put (s : fifo) (item : T) : outcome (fifo * bool) :=
  let tmp_head := f_head s in
  if word W (tmp_head - f_tail s) =? f_max s then Ok (s, false)
  else
    let* i := slot (f_max s) tmp_head in
    let* b := wr (f_buf s) i item in
    Ok (Fifo (f_max s) (word W (tmp_head + 1)) (f_tail s) b, true).

(* num_free: spsc.hh:47-49, spsc_dyn.hh:67-69 *)
Definition num_free (s : fifo) : Z := word W (f_max s - word W (f_head s - f_tail s)).

(* full: spsc.hh:59-61, spsc_dyn.hh:79-81 *)
Definition full (s : fifo) : bool := num_free s =? 0.

(* get: spsc.hh:66-78, spsc_dyn.hh:86-98 *)
Definition get (s : fifo) : outcome (fifo * option T) :=
  let tmp_tail := f_tail s in
  if tmp_tail =? f_head s then Ok (s, None)
  else
    let* i := slot (f_max s) tmp_tail in
    let* item := rd (f_buf s) i in
    Ok (Fifo (f_max s) (f_head s) (word W (tmp_tail + 1)) (f_buf s), Some item).

(* get_move: spsc.hh:80-92, spsc_dyn.hh:100-112.  [residue] is whatever the
   move assignment leaves in the slot; result None = false, t unchanged. *)
Definition get_move (s : fifo) (residue : T) : outcome (fifo * option T) :=
  let tmp_tail := f_tail s in
  if tmp_tail =? f_head s then Ok (s, None)
  else
    let* i := slot (f_max s) tmp_tail in
    let* item := rd (f_buf s) i in
    let* b := wr (f_buf s) i residue in
    Ok (Fifo (f_max s) (f_head s) (word W (tmp_tail + 1)) b, Some item).

(* get_or_default: spsc.hh:94-96, spsc_dyn.hh:114-116 *)
Definition get_or_default (s : fifo) : outcome (fifo * T) :=
  let* (s', o) := get s in
  Ok (s', match o with Some x => x | None => dflt end).

(* remove_first: spsc.hh:98-103, spsc_dyn.hh:118-123 *)
Definition remove_first (s : fifo) : fifo :=
  let tmp_tail := f_tail s in
  if negb (tmp_tail =? f_head s)
  then Fifo (f_max s) (f_head s) (word W (tmp_tail + 1)) (f_buf s)
  else s.

(* num_filled: spsc.hh:106-108, spsc_dyn.hh:126-128 *)
Definition num_filled (s : fifo) : Z := word W (f_head s - f_tail s).

(* empty: spsc.hh:110-112, spsc_dyn.hh:130-132 *)
Definition empty (s : fifo) : bool := num_filled s =? 0.

(* set_read_pos: spsc.hh:114-116, spsc_dyn.hh:134-136 *)
Definition set_read_pos (s : fifo) (pos : Z) : fifo :=
  Fifo (f_max s) (f_head s) (word W pos) (f_buf s).

(* set_read_offset: spsc.hh:119-123, spsc_dyn.hh:139-143 *)
Definition set_read_offset (s : fifo) (offset : Z) : fifo :=
  let head := f_head s in
  if offset <=? head then Fifo (f_max s) head (word W (head - offset)) (f_buf s) else s.

(* set_write_pos: spsc.hh:125-127, spsc_dyn.hh:145-147 *)
Definition set_write_pos (s : fifo) (pos : Z) : fifo :=
  Fifo (f_max s) (word W pos) (f_tail s) (f_buf s).

(* reset: spsc.hh:130-132, spsc_dyn.hh:150-152 *)
Definition reset (s : fifo) : fifo := Fifo (f_max s) (f_head s) (f_head s) (f_buf s).

(* max_size: spsc.hh:135-137, spsc_dyn.hh:155-157 *)
Definition max_size (s : fifo) : Z := f_max s.

(* std::vector::resize: keep the first n elements, pad with T{} *)
Definition vector_resize (l : list T) (n : Z) : list T :=
  firstn (Z.to_nat n) l ++ zrepeat dflt (n - zlen l).

(* resize: spsc_dyn.hh:35-48 (only the dynamic class has it) *)
Definition resize (s : fifo) (n : Z) : fifo :=
  if negb (n =? f_max s) then
    let s1 := reset s in
    let b1 := if n <? f_max s then [] else f_buf s1 in
    Fifo n (f_head s1) (f_tail s1) (vector_resize b1 n)
  else s.

(* Dispatch of a call to the methods above. *)
Definition fifo_step (s : fifo) (o : qop T) : outcome (fifo * qout T) :=
  match o with
  | Put x => let* (s', b) := put s x in Ok (s', RBool b)
  | Get => let* (s', r) := get s in Ok (s', ROpt r)
  | GetMove residue => let* (s', r) := get_move s residue in Ok (s', ROpt r)
  | GetOrDefault => let* (s', x) := get_or_default s in Ok (s', RItem x)
  | RemoveFirst => Ok (remove_first s, RUnit)
  | Reset => Ok (reset s, RUnit)
  | NumFree => Ok (s, RNum (num_free s))
  | NumFilled => Ok (s, RNum (num_filled s))
  | Full => Ok (s, RBool (full s))
  | Empty => Ok (s, RBool (empty s))
  | MaxSize => Ok (s, RNum (max_size s))
  | Resize n => Ok (resize s n, RUnit)
  end.

(* Constructors: spsc.hh:17 and 140-142 (default), spsc.hh:26-28 (head offset),
   spsc_dyn.hh:16-21 and 26-31. *)
Definition fifo_init (cap : Z) : fifo := Fifo cap 0 0 (zrepeat dflt cap).
Definition fifo_init_head (cap head : Z) : fifo := Fifo cap head 0 (zrepeat dflt cap).

End Fifo.
Arguments fifo : clear implicits.

(* Index into the buffer: tmp & SIZE_MASK, SIZE_MASK = max_size_ - 1.
   spsc.hh:15, 39, 73, 87 *)
Definition slot_static (m p : Z) : outcome Z := Ok (Z.land p (m - 1)).

(* Index into the buffer: tmp % max_size_.  spsc_dyn.hh:59, 93, 107 *)
Definition slot_dyn (m p : Z) : outcome Z :=
  if m =? 0 then UB DivByZero else Ok (p mod m).
