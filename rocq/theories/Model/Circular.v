(* Model of util/circular_buffer.hh (CircularBuffer), util/circular_buffer_opt.hh
   (CircularBufferOpt, same text except get's return type, first() and the
   fill_buffer overloads) and util/circular_stack.hh (CircularStack).
   [W] is the width of size_t, [cap] the template argument max_size_. *)
From Verif.Common Require Import Base.
From Verif.Spec Require Import RingSpec.

Section CB.
Context {T : Type}.
Variables (W cap : Z) (dflt : T).

(* circular_buffer.hh:130-133 *)
Record cbuf := CBuf { cb_buf : list T; cb_head : Z; cb_tail : Z; cb_full : bool }.

(* circular_buffer.hh:9, 119-127: (head_ + 1) & SIZE_MASK *)
Definition inc (p : Z) : Z := Z.land (word W (p + 1)) (cap - 1).

(* put: circular_buffer.hh:13-21 *)
Definition cb_put (s : cbuf) (x : T) : outcome cbuf :=
  let* b := wr (cb_buf s) (cb_head s) x in
  let t := if cb_full s then inc (cb_tail s) else cb_tail s in
  let h := inc (cb_head s) in
  Ok (CBuf b h t (h =? t)).

(* empty: circular_buffer.hh:59-62 *)
Definition cb_empty (s : cbuf) : bool := negb (cb_full s) && (cb_head s =? cb_tail s).

(* get: circular_buffer_opt.hh:26-37; None = nullopt *)
Definition cb_get_opt (s : cbuf) : outcome (cbuf * option T) :=
  if cb_empty s then Ok (s, None)
  else
    let* v := rd (cb_buf s) (cb_tail s) in
    Ok (CBuf (cb_buf s) (cb_head s) (inc (cb_tail s)) false, Some v).

(* get: circular_buffer.hh:23-34 *)
Definition cb_get (s : cbuf) : outcome (cbuf * T) :=
  if cb_empty s then Ok (s, dflt)
  else
    let* v := rd (cb_buf s) (cb_tail s) in
    Ok (CBuf (cb_buf s) (cb_head s) (inc (cb_tail s)) false, v).

(* set_head: circular_buffer.hh:36-38 *)
Definition cb_set_head (s : cbuf) (h : Z) : cbuf := CBuf (cb_buf s) (word W h) (cb_tail s) (cb_full s).

(* remove_first: circular_buffer.hh:40-45 *)
Definition cb_remove_first (s : cbuf) : cbuf :=
  if negb (cb_empty s) then CBuf (cb_buf s) (cb_head s) (inc (cb_tail s)) false else s.

(* reset: circular_buffer.hh:54-57 *)
Definition cb_reset (s : cbuf) : cbuf := CBuf (cb_buf s) (cb_tail s) (cb_tail s) false.

(* count / num_filled: circular_buffer.hh:77-88, 100-102 *)
Definition cb_count (s : cbuf) : Z :=
  if negb (cb_full s) then
    if cb_head s >=? cb_tail s then word W (cb_head s - cb_tail s)
    else word W (cap + cb_head s - cb_tail s)
  else cap.

(* fill_buffer(T): circular_buffer.hh:94-97 *)
Definition cb_fill (s : cbuf) (x : T) : cbuf :=
  CBuf (map (fun _ => x) (cb_buf s)) (cb_head s) (cb_tail s) (cb_full s).

(* get_head_idx, get_tail_idx: circular_buffer.hh:104-110 *)
Definition cb_head_idx (s : cbuf) : Z := cb_head s.
Definition cb_tail_idx (s : cbuf) : Z := cb_tail s.

(* peek: circular_buffer.hh:112-116 *)
Definition cb_peek (s : cbuf) (idx : Z) : outcome T :=
  rd (cb_buf s) (Z.land (word W (idx + cb_tail s)) (cap - 1)).

(* full, max_size / max_capacity: circular_buffer.hh:64-74 *)
Definition cb_step (s : cbuf) (o : rop T) : outcome (cbuf * rout T) :=
  match o with
  | RPut x => let* s' := cb_put s x in Ok (s', OUnit)
  | RGet => let* (s', x) := cb_get s in Ok (s', OItem x)
  | RGetOpt => let* (s', x) := cb_get_opt s in Ok (s', OOpt x)
  | RRemoveFirst => Ok (cb_remove_first s, OUnit)
  | RReset => Ok (cb_reset s, OUnit)
  | RCount => Ok (s, ONum (cb_count s))
  | RFull => Ok (s, OBool (cb_full s))
  | REmpty => Ok (s, OBool (cb_empty s))
  | RMaxSize => Ok (s, ONum cap)
  | RPeek i => let* x := cb_peek s i in Ok (s, OItem x)
  | RFill x => Ok (cb_fill s x, OUnit)
  end.

(* circular_buffer.hh:11, 129-133 *)
Definition cb_init : cbuf := CBuf (zrepeat dflt cap) 0 0 false.

(* ---- CircularStack: circular_stack.hh.  int indices never leave [0, MaxElements]. ---- *)
(* circular_stack.hh:11-17 *)
Record cstk := CStk { st_data : list T; st_top : Z; st_bot : Z; st_full : bool }.

(* size: circular_stack.hh:77-84 *)
Definition st_size (s : cstk) : Z :=
  if st_full s then cap
  else if st_top s >=? st_bot s then st_top s - st_bot s
  else st_top s + cap - st_bot s.

(* push_back: circular_stack.hh:27-39 *)
Definition st_push (s : cstk) (x : T) : outcome cstk :=
  let* d := wr (st_data s) (st_top s) x in
  let t := st_top s + 1 in
  let t := if t >=? cap then 0 else t in
  let b := if st_full s then t else st_bot s in
  let f := if t =? b then true else st_full s in
  Ok (CStk d t b f).

(* pop_back: circular_stack.hh:41-53 *)
Definition st_pop (s : cstk) : outcome (cstk * option T) :=
  if st_size s =? 0 then Ok (s, None)
  else
    let t := if st_top s =? 0 then cap - 1 else st_top s - 1 in
    let* x := rd (st_data s) t in
    Ok (CStk (st_data s) t (st_bot s) false, Some x).

(* back: circular_stack.hh:55-61 *)
Definition st_back (s : cstk) : outcome (option T) :=
  if st_size s =? 0 then Ok None
  else
    let t := if st_top s =? 0 then cap - 1 else st_top s - 1 in
    let* x := rd (st_data s) t in Ok (Some x).

(* pop_back_or_zero: circular_stack.hh:63-75 *)
Definition st_pop_or_zero (s : cstk) : outcome (cstk * T) :=
  if st_size s =? 0 then Ok (s, dflt)
  else
    let t := if st_top s =? 0 then cap - 1 else st_top s - 1 in
    let* x := rd (st_data s) t in
    Ok (CStk (st_data s) t (st_bot s) false, x).

(* clear: circular_stack.hh:90-94 *)
Definition st_clear (s : cstk) : cstk := CStk (st_data s) 0 0 false.

(* empty: circular_stack.hh:96-102 *)
Definition st_empty (s : cstk) : bool :=
  if st_full s then false else if st_top s =? st_bot s then true else false.

Definition st_step (s : cstk) (o : sop T) : outcome (cstk * rout T) :=
  match o with
  | SPush x => let* s' := st_push s x in Ok (s', OUnit)
  | SPop => let* (s', x) := st_pop s in Ok (s', OOpt x)
  | SPopOrZero => let* (s', x) := st_pop_or_zero s in Ok (s', OItem x)
  | SBack => let* x := st_back s in Ok (s, OOpt x)
  | SSize => Ok (s, ONum (st_size s))
  | SEmpty => Ok (s, OBool (st_empty s))
  | SClear => Ok (st_clear s, OUnit)
  | SMaxSize => Ok (s, ONum cap)
  end.

(* default constructor: circular_stack.hh:20; std::array<T> data is default
   initialised, so its contents are arbitrary here *)
Definition st_init (data : list T) : cstk := CStk data 0 0 false.

(* variadic constructor: circular_stack.hh:22-25 (remaining elements are T{}) *)
Definition st_init_from (ts : list T) : cstk :=
  CStk (ts ++ zrepeat dflt (cap - zlen ts)) 0 0 false.

End CB.
Arguments cbuf : clear implicits.
Arguments cstk : clear implicits.

(* fill_buffer(T val) of CircularBufferOpt: circular_buffer_opt.hh:101-103,
   memset(buf_.data(), val, max_size_).  The buffer is seen as bytes, [esz]
   bytes per element; val is converted to unsigned char. *)
Definition memset (bytes : list Z) (val n : Z) : outcome (list Z) :=
  if n <=? zlen bytes then Ok (zrepeat (word 8 val) n ++ skipn (Z.to_nat n) bytes) else UB OutOfBounds.
Definition cbo_fill_bytes (cap : Z) (bytes : list Z) (val : Z) : outcome (list Z) := memset bytes val cap.
(* fill_buffer(std::array &src): circular_buffer_opt.hh:97-99, memcpy of max_size_ bytes *)
Definition cbo_copy_bytes (cap : Z) (bytes src : list Z) : outcome (list Z) :=
  if (cap <=? zlen bytes) && (cap <=? zlen src)
  then Ok (firstn (Z.to_nat cap) src ++ skipn (Z.to_nat cap) bytes) else UB OutOfBounds.
