(* Arguments that refer into the object they are given to: raw() of CompactBinaryWriter
   (compact_binary_writer.hh) and of CompactBinarySerializer's SpanWriter with a span of the very
   buffer being written, StaticString::copy with a view of its own text, SeqMap's insert and
   overwrite with a reference to a stored value. *)
From Verif.Common Require Import Base.
From Verif.Spec Require Import BinarySpec MapSpec.
From Verif.Model Require Import CompactBinary Maps.

Section OwnBuffer.
Variables (W : Z) (KW SW : nat) (arr sgn : bool).

(* emit(bytes) with bytes = buf.subspan(a, n): writer.hh 90-96, serializer.hh 114-120.  Each byte is
   loaded when its turn comes; buf[a] needs a < buf.size() *)
Fixpoint emit_own (n : nat) (a : Z) (s : list Z * Z) : outcome (list Z * Z) :=
  match n with
  | O => Ok s
  | S n' =>
      let (buf, pos) := s in
      let* b := rd buf a in
      let* buf := (if pos <? zlen buf then wr buf pos b else Ok buf) in
      emit_own n' (a + 1) (buf, word W (pos + 1))
  end.

(* raw(key, buf.subspan(a, n)): writer.hh 54-58 *)
Definition w_raw_own (s : writer) (k : list Z) (a : Z) (n : nat) : outcome writer :=
  let* s := write_key KW arr (w_emit W) k s in
  let* s := write_size SW sgn (w_emit W) (Z.of_nat n) s in
  let* (b, p) := emit_own n a (w_buf s, w_pos s) in
  Ok (Writer b p (w_stack s) (w_depth s)).
(* SpanWriter::raw(key, output.subspan(a, n)): serializer.hh 90-94 *)
Definition span_raw_own (s : list Z * Z) (k : list Z) (a : Z) (n : nat) : outcome (list Z * Z) :=
  let* s := write_key KW arr (span_emit W) k s in
  let* s := write_size SW sgn (span_emit W) (Z.of_nat n) s in
  emit_own n a s.
End OwnBuffer.

(* copy(std::string_view{data() + off, n}): static_string.hh:41-49, the view into _data itself *)
Fixpoint copy_sv_self (cap : Z) (n : nat) (i off : Z) (d : list Z) : outcome (list Z) :=
  match n with
  | O => wr d i 0
  | S n' =>
      let* c := rd d (off + i) in
      let* d1 := wr d i c in
      let i := i + 1 in
      if i >=? cap then wr d1 i 0 else copy_sv_self cap n' i off d1
  end.

Section OwnMap.
Context {K V : Type}.
Variables (keq : K -> K -> bool) (N : Z).
(* insert(key, vals[j]): seq_map.hh:13-20 *)
Definition q_insert_own (s : seqmap K V) (k : K) (j : Z) : outcome (seqmap K V * bool) :=
  if q_sz s >=? N then Ok (s, false)
  else
    let* ks := wr (q_keys s) (q_sz s) k in
    let* v := rd (q_vals s) j in
    let* vs := wr (q_vals s) (q_sz s) v in
    Ok (SeqMap ks vs (q_sz s + 1) (q_oldest s), true).
(* overwrite(key, vals[j]): seq_map.hh:22-46 *)
Definition q_overwrite_own (s : seqmap K V) (k : K) (j : Z) : outcome (seqmap K V * V) :=
  let* a := active s in
  match find_key keq k 0 a with
  | Some i =>
      let* v := rd (q_vals s) j in
      let* vs := wr (q_vals s) i v in
      let* r := rd vs i in
      Ok (SeqMap (q_keys s) vs (q_sz s) (q_oldest s), r)
  | None =>
      let '(index, sz, oldest) :=
        if q_sz s >=? N then
          let o := q_oldest s + 1 in
          (q_oldest s, q_sz s, if o >=? N then 0 else o)
        else (q_sz s, q_sz s + 1, q_oldest s) in
      let* ks := wr (q_keys s) index k in
      let* v := rd (q_vals s) j in
      let* vs := wr (q_vals s) index v in
      let* r := rd vs index in
      Ok (SeqMap ks vs sz oldest, r)
  end.
End OwnMap.

(* util/byte_block.hh lines 36-39: printRaw, given a pointer to byte [i] of the block's own data.
   data is a std::vector: push_back of a full vector moves its elements to new storage of capacity
   [grow cap] and frees the old one, into which the pointer still points ([moved]).  push_back itself
   copies its argument before the old storage is freed, as the C++ standard demands.  [cap]: capacity(). *)
Fixpoint bb_raw_own (grow : Z -> Z) (n : nat) (i : Z) (moved : bool) (data : list Z) (cap : Z) : outcome (list Z * Z) :=
  match n with
  | O => Ok (data, cap)
  | S n' =>
    if moved then UB BadDeref
    else
      let* x := rd data i in
      let full := zlen data =? cap in
      bb_raw_own grow n' (i + 1) full (data ++ [x]) (if full then grow cap else cap)
  end.
