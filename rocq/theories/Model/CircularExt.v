(* Model of util/circular_buffer_ext.hh (CircularBufferAccess) and
   util/circular_buffer_block.hh (CircularBufferBlock).
   [W] is the width of size_t.  [mix d old] is the value
   value_type(d * phase + old * (1 - phase)) of lines 63 and 76; the theorems
   hold for every such function, and Model/CircularMix.v gives the float one. *)
From Verif.Common Require Import Base.

Section Access.
Context {T : Type}.
Variables (W : Z) (mix : T -> T -> T) (zero : T).

(* circular_buffer_ext.hh:145-149; sz is the size of the backing container *)
Record acc := Acc { a_buf : list T; a_sz : Z; a_rd : Z; a_wr : Z }.

(* constructor: circular_buffer_ext.hh:23-28 *)
Definition acc_init (buf : list T) (initial_offset : Z) : acc := Acc buf (zlen buf) 0 initial_offset.

(* clear: circular_buffer_ext.hh:30-34 *)
Fixpoint clear_loop (n : nat) (i : Z) (b : list T) : outcome (list T) :=
  match n with
  | O => Ok b
  | S n' => let* b' := wr b i zero in clear_loop n' (i + 1) b'
  end.
Definition acc_clear (s : acc) : outcome acc :=
  let* b := clear_loop (Z.to_nat (a_sz s)) 0 (a_buf s) in Ok (Acc b (a_sz s) (a_rd s) (a_wr s)).

(* read: circular_buffer_ext.hh:36-46; n = read_data.size(), result = data read and wrapped flag *)
Fixpoint read_loop (n : nat) (s : acc) (wrapped : bool) : outcome (acc * list T * bool) :=
  match n with
  | O => Ok (s, [], wrapped)
  | S n' =>
      let* d := rd (a_buf s) (a_rd s) in
      let r := word W (a_rd s + 1) in
      let (r, w) := if r >=? a_sz s then (0, true) else (r, wrapped) in
      let* (s', ds, w') := read_loop n' (Acc (a_buf s) (a_sz s) r (a_wr s)) w in
      Ok (s', d :: ds, w')
  end.
Definition acc_read (s : acc) (n : Z) := read_loop (Z.to_nat n) s false.

(* read_reverse: circular_buffer_ext.hh:48-58 *)
Fixpoint read_reverse_loop (n : nat) (s : acc) (wrapped : bool) : outcome (acc * list T * bool) :=
  match n with
  | O => Ok (s, [], wrapped)
  | S n' =>
      let* d := rd (a_buf s) (a_rd s) in
      let r := word W (a_rd s - 1) in
      let (r, w) := if r >=? a_sz s then (word W (a_sz s - 1), true) else (r, wrapped) in
      let* (s', ds, w') := read_reverse_loop n' (Acc (a_buf s) (a_sz s) r (a_wr s)) w in
      Ok (s', d :: ds, w')
  end.
Definition acc_read_reverse (s : acc) (n : Z) := read_reverse_loop (Z.to_nat n) s false.

(* write: circular_buffer_ext.hh:60-71 *)
Fixpoint write_loop (data : list T) (s : acc) (wrapped : bool) : outcome (acc * bool) :=
  match data with
  | [] => Ok (s, wrapped)
  | d :: ds =>
      let* old := rd (a_buf s) (a_wr s) in
      let* b := wr (a_buf s) (a_wr s) (mix d old) in
      let p := word W (a_wr s + 1) in
      let (p, w) := if p >=? a_sz s then (0, true) else (p, wrapped) in
      write_loop ds (Acc b (a_sz s) (a_rd s) p) w
  end.
Definition acc_write (s : acc) (data : list T) := write_loop data s false.

(* write_reverse: circular_buffer_ext.hh:73-84 *)
Fixpoint write_reverse_loop (data : list T) (s : acc) (wrapped : bool) : outcome (acc * bool) :=
  match data with
  | [] => Ok (s, wrapped)
  | d :: ds =>
      let* old := rd (a_buf s) (a_wr s) in
      let* b := wr (a_buf s) (a_wr s) (mix d old) in
      let p := word W (a_wr s - 1) in
      let (p, w) := if p >=? a_sz s then (word W (a_sz s - 1), true) else (p, wrapped) in
      write_reverse_loop ds (Acc b (a_sz s) (a_rd s) p) w
  end.
Definition acc_write_reverse (s : acc) (data : list T) := write_reverse_loop data s false.

(* read_check_crossed: circular_buffer_ext.hh:86-93 *)
Definition acc_read_check (s : acc) (n marker : Z) : outcome (acc * list T * bool) :=
  let was := a_rd s <=? marker in
  let* (s', ds, wrapped) := acc_read s n in
  let is := a_rd s' <=? marker in
  let changed := negb (Bool.eqb was is) in
  Ok (s', ds, negb (Bool.eqb changed wrapped)).

(* read_reverse_check_crossed: circular_buffer_ext.hh:95-102 *)
Definition acc_read_reverse_check (s : acc) (n marker : Z) : outcome (acc * list T * bool) :=
  let was := a_rd s <=? marker in
  let* (s', ds, wrapped) := acc_read_reverse s n in
  let is := a_rd s' <=? marker in
  let changed := negb (Bool.eqb was is) in
  Ok (s', ds, negb (Bool.eqb changed wrapped)).

(* write_check_crossed: circular_buffer_ext.hh:104-111 *)
Definition acc_write_check (s : acc) (data : list T) (marker : Z) : outcome (acc * bool) :=
  let was := a_wr s <? marker in
  let* (s', wrapped) := acc_write s data in
  let is := a_wr s' <? marker in
  let changed := negb (Bool.eqb was is) in
  Ok (s', negb (Bool.eqb changed wrapped)).

(* wr_pos, rd_pos setters: circular_buffer_ext.hh:128-138 *)
Definition acc_set_wr (s : acc) (p : Z) : acc := Acc (a_buf s) (a_sz s) (a_rd s) (word W p).
Definition acc_set_rd (s : acc) (p : Z) : acc := Acc (a_buf s) (a_sz s) (word W p) (a_wr s).

Inductive aop := ARead (n : Z) | AReadRev (n : Z) | AWrite (d : list T) | AWriteRev (d : list T)
| AReadCheck (n m : Z) | AReadRevCheck (n m : Z) | AWriteCheck (d : list T) (m : Z)
| AClear | ASetRd (p : Z) | ASetWr (p : Z) | AGetRd | AGetWr.
Inductive aout := AData (d : list T) (b : bool) | AFlag (b : bool) | ANone | APos (p : Z).

Definition acc_step (s : acc) (o : aop) : outcome (acc * aout) :=
  match o with
  | ARead n => let* (s', d, w) := acc_read s n in Ok (s', AData d w)
  | AReadRev n => let* (s', d, w) := acc_read_reverse s n in Ok (s', AData d w)
  | AWrite d => let* (s', w) := acc_write s d in Ok (s', AFlag w)
  | AWriteRev d => let* (s', w) := acc_write_reverse s d in Ok (s', AFlag w)
  | AReadCheck n m => let* (s', d, w) := acc_read_check s n m in Ok (s', AData d w)
  | AReadRevCheck n m => let* (s', d, w) := acc_read_reverse_check s n m in Ok (s', AData d w)
  | AWriteCheck d m => let* (s', w) := acc_write_check s d m in Ok (s', AFlag w)
  | AClear => let* s' := acc_clear s in Ok (s', ANone)
  | ASetRd p => Ok (acc_set_rd s p, ANone)
  | ASetWr p => Ok (acc_set_wr s p, ANone)
  | AGetRd => Ok (s, APos (a_rd s))
  | AGetWr => Ok (s, APos (a_wr s))
  end.
End Access.
Arguments acc : clear implicits.
Arguments aop : clear implicits.
Arguments aout : clear implicits.

(* ---- CircularBufferBlock: the array is seen as its bytes, [esz] bytes per element ---- *)
(* std::memcpy into [dst] at byte [o] from [src] at byte [so], n bytes *)
Definition memcpy (dst : list Z) (o : Z) (src : list Z) (so n : Z) : outcome (list Z) :=
  if n =? 0 then Ok dst
  else if (0 <=? o) && (0 <=? so) && (0 <=? n) && (o + n <=? zlen dst) && (so + n <=? zlen src)
  then Ok (firstn (Z.to_nat o) dst ++ firstn (Z.to_nat n) (skipn (Z.to_nat so) src) ++ skipn (Z.to_nat (o + n)) dst)
  else UB OutOfBounds.

(* write: circular_buffer_block.hh:15-26.  [size] = SIZE elements, block of [blen]
   elements given as its bytes. *)
Definition block_write (esz size : Z) (data : list Z) (block : list Z) (blen start_pos : Z) : outcome (list Z) :=
  let offset := Z.land (word 32 start_pos) (word 32 (size - 1)) in
  if offset + blen <=? size then memcpy data (esz * offset) block 0 blen
  else
    let avail := size - offset in
    let* d := memcpy data (esz * offset) block 0 avail in
    memcpy d 0 block (esz * avail) (blen - avail).
